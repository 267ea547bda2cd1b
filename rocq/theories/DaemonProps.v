(** Properties C69 and C70. *)

From Coq Require Import ZArith List Bool Lia.
From Verif Require Import CInt CUtil DaemonModel DaemonSpec DaemonProofs.
Import ListNotations.
Local Open Scope Z_scope.

(** Whatever fails, just one process at most goes on, and it is told 0; it is the
    caller only if that is a daemon already. If the caller exits with 0 there is a
    daemon, and all its ancestors are gone; otherwise it exits with 1. *)
Theorem C69_daemon : forall s fates, sane s -> diminuto_daemon s = Some fates ->
  (length (filter goes_on fates) <= 1)%nat /\
  (forall rc, In (Returned rc) fates -> rc = 0) /\
  (ppid s <> 1 -> exists status rest, fates = Exited status :: rest /\ (status = 0 \/ status = 1) /\
     (status = 0 -> rest = [Exited 0; Returned 0])) /\
  (ppid s = 1 -> fates = [Returned 0]).
Proof.
  intros s fates (N1 & N2 & N3) E. unfold diminuto_daemon in E.
  destruct (Z.ltb_spec (ppid s) 0).
  { injection E as <-. split; [cbn; lia|]. split; [intros rc [Q|[]]; discriminate Q|]. split; [|lia].
    intros _. exists 1, []. split; [reflexivity|]. split; [auto|lia]. }
  destruct (Z.eqb_spec (ppid s) 1).
  { injection E as <-. split; [cbn; lia|]. split; [intros rc [Q|[]]; congruence|]. split; [contradiction|reflexivity]. }
  destruct (first_child s (Returned 0)) as [child next] eqn:C. destruct (daemon_fork s child) as [pid|] eqn:F; [|discriminate E].
  cbn [bind] in E. injection E as <-.
  assert (G : (length (filter goes_on (if (fork1 s <? 0)%Z then [] else child :: next)) <= 1)%nat /\
              (forall rc, In (Returned rc) (if (fork1 s <? 0)%Z then [] else child :: next) -> rc = 0)).
  { destruct (fork1 s <? 0); [split; [cbn; lia|intros rc []]|].
    destruct (first_child_cases s (Returned 0) N2) as [Q|[Q|[Q|[Q _]]]]; rewrite Q in C; injection C as <- <-; cbn [filter goes_on length];
      (split; [lia|]); intros rc I; repeat destruct I as [I|I]; try discriminate I; try contradiction; congruence. }
  destruct G as (G1 & G2). split; [destruct (pid <? 0); cbn [filter goes_on]; exact G1|].
  split; [intros rc [I|I]; [destruct (pid <? 0); discriminate I|apply G2, I]|]. split; [|lia].
  intros _. destruct (Z.ltb_spec pid 0).
  - exists 1. eexists. split; [reflexivity|]. split; [auto|lia].
  - exists 0. eexists. split; [reflexivity|]. split; [auto|]. intros _. destruct (fork_ok s child pid N1 F) as (F1 & -> & st & -> & F2); [lia|].
    destruct (Z.ltb_spec (fork1 s) 0); [lia|].
    destruct (first_child_cases s (Returned 0) N2) as [Q|[Q|[Q|[Q _]]]]; rewrite Q in C; try discriminate C; injection C as <- <-; [discriminate F2|reflexivity].
Qed.
Print Assumptions C69_daemon.

(** A service: the caller goes on too. It is told 1 only if there is a service, and
    else -1. *)
Theorem C69_service : forall s fates, sane s -> diminuto_service s = Some fates ->
  exists rc rest, fates = Returned rc :: rest /\ (rc = 1 \/ rc = -1) /\
    (length (filter goes_on rest) <= 1)%nat /\
    (forall rc, In (Returned rc) rest -> rc = 0) /\
    (rc = 1 -> rest = [Exited 0; Returned 0]).
Proof.
  intros s fates (N1 & N2 & N3) E. unfold diminuto_service in E.
  destruct (first_child s (Returned 0)) as [child next] eqn:C. destruct (daemon_fork s child) as [pid|] eqn:F; [|discriminate E].
  cbn [bind] in E. injection E as <-.
  assert (G : (length (filter goes_on (if (fork1 s <? 0)%Z then [] else child :: next)) <= 1)%nat /\
              (forall rc, In (Returned rc) (if (fork1 s <? 0)%Z then [] else child :: next) -> rc = 0)).
  { destruct (fork1 s <? 0); [split; [cbn; lia|intros rc []]|].
    destruct (first_child_cases s (Returned 0) N2) as [Q|[Q|[Q|[Q _]]]]; rewrite Q in C; injection C as <- <-; cbn [filter goes_on length];
      (split; [lia|]); intros rc I; repeat destruct I as [I|I]; try discriminate I; try contradiction; congruence. }
  destruct G as (G1 & G2). destruct (Z.ltb_spec pid 0).
  - exists (-1). eexists. split; [reflexivity|]. split; [auto|]. split; [exact G1|]. split; [exact G2|]. discriminate.
  - exists 1. eexists. split; [reflexivity|]. split; [auto|]. split; [exact G1|]. split; [exact G2|]. intros _.
    destruct (fork_ok s child pid N1 F) as (F1 & -> & st & -> & F2); [lia|]. destruct (Z.ltb_spec (fork1 s) 0); [lia|].
    destruct (first_child_cases s (Returned 0) N2) as [Q|[Q|[Q|[Q _]]]]; rewrite Q in C; try discriminate C; injection C as <- <-; [discriminate F2|reflexivity].
Qed.
Print Assumptions C69_service.

(** A command: only the caller goes on. It is told 0 only if there is a process that
    executes the command, or that tried to. *)
Theorem C69_system : forall s fates, sane s -> diminuto_system s = Some fates ->
  exists rc rest, fates = Returned rc :: rest /\ (rc = 0 \/ rc = -1) /\
    filter goes_on rest = [] /\
    (rc = 0 -> rest = [Exited 0; if exec s then Executed else Exited 1]).
Proof.
  intros s fates (N1 & N2 & N3) E. unfold diminuto_system in E. set (x := if exec s then Executed else Exited 1) in *.
  assert (X : goes_on x = false) by (unfold x; destruct (exec s); reflexivity).
  destruct (first_child s x) as [child next] eqn:C. destruct (daemon_fork s child) as [pid|] eqn:F; [|discriminate E].
  cbn [bind] in E. injection E as <-.
  assert (G : filter goes_on (if (fork1 s <? 0)%Z then [] else child :: next) = []).
  { destruct (fork1 s <? 0); [reflexivity|].
    destruct (first_child_cases s x N2) as [Q|[Q|[Q|[Q _]]]]; rewrite Q in C; injection C as <- <-; cbn [filter goes_on]; rewrite ?X; reflexivity. }
  destruct (Z.ltb_spec pid 0).
  - exists (-1). eexists. split; [reflexivity|]. split; [auto|]. split; [exact G|]. discriminate.
  - exists 0. eexists. split; [reflexivity|]. split; [auto|]. split; [exact G|]. intros _.
    destruct (fork_ok s child pid N1 F) as (F1 & -> & st & -> & F2); [lia|]. destruct (Z.ltb_spec (fork1 s) 0); [lia|].
    destruct (first_child_cases s x N2) as [Q|[Q|[Q|[Q _]]]]; rewrite Q in C; try discriminate C; injection C as <- <-; [discriminate F2|reflexivity].
Qed.
Print Assumptions C69_system.

(** If nothing fails it works, however often the wait is interrupted. *)
Theorem C69_works : forall s, works s ->
  diminuto_daemon s = Some [Exited 0; Exited 0; Returned 0] /\
  diminuto_service s = Some [Returned 1; Exited 0; Returned 0] /\
  diminuto_system s = Some [Returned 0; Exited 0; if exec s then Executed else Exited 1].
Proof.
  intros s W. unfold diminuto_daemon, diminuto_service, diminuto_system. rewrite !child_works by exact W.
  destruct (fork_works s W) as (-> & F). cbn [bind]. rewrite F. destruct W as (P & _).
  destruct (Z.ltb_spec (ppid s) 0); [lia|]. destruct (Z.eqb_spec (ppid s) 1); [lia|]. auto.
Qed.
Print Assumptions C69_works.

(** The converse does not hold: if the caller ignores SIGCHLD it is told of a failure
    although there is a daemon, or a service. *)
Theorem C69_ignored_refuted : forall p f g x, 1 < p -> 0 < f -> 0 < g ->
  let s := mksystem p f [NoChild] Not g x in
  sane s /\ diminuto_daemon s = Some [Exited 1; Exited 0; Returned 0] /\
  diminuto_service s = Some [Returned (-1); Exited 0; Returned 0].
Proof.
  intros p f g x Hp Hf Hg s. split; [unfold sane; cbn; lia|].
  unfold diminuto_daemon, diminuto_service, first_child, daemon_fork. cbn.
  destruct (Z.ltb_spec p 0); [lia|]. destruct (Z.eqb_spec p 1); [lia|]. destruct (Z.ltb_spec g 0); [lia|]. destruct (Z.ltb_spec f 0); [lia|]. auto.
Qed.
Print Assumptions C69_ignored_refuted.

Example C69_example :
  works (mksystem 700 701 [Interrupted; Interrupted; Reaped] Not 702 true) /\
  sane (mksystem 700 701 [Interrupted; OtherError] After (-1) true) /\
  diminuto_daemon (mksystem 700 701 [Interrupted; OtherError] After (-1) true) = Some [Exited 1; Killed].
Proof.
  split; [|split; [unfold sane; cbn; lia|reflexivity]]. unfold works. cbn. repeat split; try lia. exists 2%nat, []. reflexivity.
Qed.
Print Assumptions C69_example.

(** Descriptors. If nothing fails, a daemon has the null device for standard input,
    output and error, and of the other descriptors below 1024 none is open. *)
Theorem C70_null : forall limit opens dups p,
  standard p -> (forall x, opens x = true) -> (forall x, dups x = true) ->
  (exists fd, 3 <= fd < Z.of_nat limit /\ descriptors p fd = None) ->
  exists p', sanitize limit true opens dups p = Some p' /\ standard p' /\
    descriptors p' 0 = Some (Path true) /\ descriptors p' 1 = Some (Path false) /\ descriptors p' 2 = Some (Path false) /\
    (forall fd, 3 <= fd < 1024 -> descriptors p' fd = None).
Proof.
  intros limit opens dups p S O D Y. destruct (sanitize_standard limit opens dups p S) as (t & E & _ & T). specialize (T O D Y).
  eexists. split; [exact E|]. split; [exact S|]. cbn [descriptors].
  rewrite !closing_standard, !T. repeat split. intros fd Hf. rewrite closing_standard.
  destruct (Z.leb_spec 3 fd), (Z.ltb_spec fd 1024); try lia. reflexivity.
Qed.
Print Assumptions C70_null.

(** Whatever fails, none of the other descriptors below 1024 remains open, nothing is
    undefined, and the first three are what they were or the null device. *)
Theorem C70_closed : forall limit opens dups p, standard p ->
  exists p', sanitize limit true opens dups p = Some p' /\ standard p' /\
    (forall fd, 3 <= fd < 1024 -> descriptors p' fd = None) /\
    (forall fd, 0 <= fd < 3 -> descriptors p' fd = descriptors p fd \/ exists r, descriptors p' fd = Some (Path r)).
Proof.
  intros limit opens dups p S. destruct (sanitize_standard limit opens dups p S) as (t & E & A & _).
  eexists. split; [exact E|]. split; [exact S|]. cbn [descriptors]. split; intros fd Hf; rewrite closing_standard;
    destruct (Z.leb_spec 3 fd), (Z.ltb_spec fd 1024); try lia; [reflexivity|]. apply A.
Qed.
Print Assumptions C70_closed.

(** A command keeps standard input, output and error, and nothing else. *)
Theorem C70_command : forall limit opens dups p, standard p ->
  exists p', sanitize limit false opens dups p = Some p' /\ standard p' /\
    (forall fd, 3 <= fd < 1024 -> descriptors p' fd = None) /\
    (forall fd, 0 <= fd < 3 -> descriptors p' fd = descriptors p fd).
Proof.
  intros limit opens dups p S. unfold sanitize. destruct (fileno_standard p S) as (F1 & F2 & F3). cbn [bind]. rewrite F1, F2, F3. cbn [bind].
  eexists. split; [reflexivity|]. split; [exact S|]. cbn [descriptors]. split; intros fd Hf; rewrite closing_standard;
    destruct (Z.leb_spec 3 fd), (Z.ltb_spec fd 1024); try lia; reflexivity.
Qed.
Print Assumptions C70_command.

(** The descriptors from 1024 on that the limit allows stay open. *)
Theorem C70_high_refuted : forall limit opens dups p fd f, standard p -> 1024 <= fd -> descriptors p fd = Some f ->
  exists p' f', sanitize limit true opens dups p = Some p' /\ descriptors p' fd = Some f'.
Proof.
  intros limit opens dups p fd f S Hf F. destruct (sanitize_standard limit opens dups p S) as (t & E & A & _).
  eexists. specialize (A fd). rewrite F in A. destruct A as [A|(r & A)]; eexists; (split; [exact E|]); cbn [descriptors]; rewrite closing_standard;
    destruct (Z.leb_spec 3 fd), (Z.ltb_spec fd 1024); try lia; exact A.
Qed.
Print Assumptions C70_high_refuted.

(** If stdin is a stream with another descriptor it is used after it has been freed;
    if stdout is null it is opened for reading, which fails, and its descriptor is
    asked for. Both are undefined. *)
Theorem C70_streams_refuted : forall limit opens dups p,
  (forall x, opens x = true) -> (forall x, dups x = true) ->
  (exists fd, 3 <= fd < Z.of_nat limit /\ descriptors p fd = None) ->
  (stdin p = Some (mkstream 5 true) \/ (stdin p = Some (mkstream 0 true) /\ stdout p = None)) ->
  sanitize limit true opens dups p = None.
Proof.
  intros limit opens dups p O D (y & Y1 & Y2) [S|(S1 & S2)]; unfold sanitize.
  - rewrite S. unfold redirect. rewrite (O 0). destruct (lowest_found (descriptors p) limit 0 y ltac:(lia) Y2) as (z & ->). reflexivity.
  - rewrite S1, S2. destruct (redirect_standard limit (opens 0) (dups 0) 0 true (descriptors p)) as (t1 & E1 & A1 & B1). rewrite E1. cbn [bind].
    specialize (B1 (O 0) (D 0) ltac:(exists y; split; [lia|exact Y2])).
    assert (Y3 : t1 y = None) by (rewrite B1; destruct (Z.eqb_spec y 0); [lia|exact Y2]).
    unfold redirect at 1. rewrite (O 1), (D 1). destruct (lowest_found t1 limit 0 y ltac:(lia) Y3) as (z & E). rewrite E. cbn [bind].
    match goal with |- context [fdopen_r ?t 1] => assert (F : fdopen_r t 1 = None) end.
    { unfold fdopen_r, set. destruct (Z.eqb_spec z 1) as [->|N]; [reflexivity|]. destruct (Z.eqb_spec 1 z); [congruence|]. reflexivity. }
    rewrite F. match goal with |- context [redirect ?a ?b ?c ?d ?e ?f ?g] => destruct (redirect a b c d e f g) as [[t3 e3]|] end; [|reflexivity].
    cbn [bind stdin stdout fileno live]. reflexivity.
Qed.
Print Assumptions C70_streams_refuted.

(** A case in which the hypotheses hold: a terminal at 0 and 2, nothing at 1, files at
    3 and 7. *)
Example C70_example :
  let p := mkprocess (fun fd => if (fd =? 0) || (fd =? 2) || (fd =? 3) || (fd =? 7) then Some (Before_ fd true) else None)
                     (Some (mkstream 0 true)) (Some (mkstream 1 true)) (Some (mkstream 2 true)) in
  standard p /\ (exists fd, 3 <= fd < Z.of_nat 1024 /\ descriptors p fd = None) /\
  match sanitize 1024 true (fun _ => true) (fun _ => true) p with
  | Some p' => map (descriptors p') [0; 1; 2; 3; 4; 5; 6; 7] = [Some (Path true); Some (Path false); Some (Path false); None; None; None; None; None]
  | None => False
  end.
Proof.
  cbn zeta. split; [repeat split|]. split; [exists 4; split; [lia|reflexivity]|]. vm_compute. reflexivity.
Qed.
Print Assumptions C70_example.
