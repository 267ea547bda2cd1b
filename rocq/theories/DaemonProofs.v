From Coq Require Import ZArith List Bool Lia.
From Verif Require Import CInt CUtil DaemonModel DaemonSpec.
Import ListNotations.
Local Open Scope Z_scope.

(** * Processes *)

Lemma first_child_cases s next : fork2 s <> 0 ->
  first_child s next = (Killed, []) \/ first_child s next = (Exited 1, []) \/
  first_child s next = (Killed, [next]) \/ (first_child s next = (Exited 0, [next]) /\ 0 < fork2 s).
Proof.
  intros N. unfold first_child. destruct (killed s), (Z.ltb_spec (fork2 s) 0); auto. right. right. right. split; [reflexivity|lia].
Qed.

Lemma fork_ok s child pid : fork1 s <> 0 -> daemon_fork s child = Some pid -> 0 <= pid ->
  0 < fork1 s /\ pid = fork1 s /\ exists status, child = Exited status /\ status mod 256 = 0.
Proof.
  intros N E P. unfold daemon_fork in E. destruct (Z.ltb_spec (fork1 s) 0); [injection E as <-; lia|].
  destruct (waitpid (waits s)) as [[|]|]; [|injection E as <-; lia|discriminate E]. cbn [bind negb] in E.
  destruct child as [rc|status| |]; try (injection E as <-; lia).
  change (Z.land status 255) with (Z.land status (Z.ones 8)) in E. rewrite Z.land_ones in E by lia. change (2 ^ 8) with 256 in E.
  destruct (Z.eqb_spec (status mod 256) 0) as [Z0|]; injection E as <-; [|lia].
  split; [lia|]. split; [reflexivity|]. exists status. split; [reflexivity|exact Z0].
Qed.

Lemma wait_works n more : waitpid (repeat Interrupted n ++ Reaped :: more) = Some true.
Proof. induction n; [reflexivity|exact IHn]. Qed.

Lemma child_works s next : works s -> first_child s next = (Exited 0, [next]).
Proof. intros (_ & _ & F & K & _). unfold first_child. rewrite K. destruct (Z.ltb_spec (fork2 s) 0); [lia|reflexivity]. Qed.

Lemma fork_works s : works s -> daemon_fork s (Exited 0) = Some (fork1 s) /\ (fork1 s <? 0) = false.
Proof.
  intros (_ & F & _ & _ & n & more & W). unfold daemon_fork. destruct (Z.ltb_spec (fork1 s) 0); [lia|]. rewrite W, wait_works. auto.
Qed.

(** * Descriptors *)

Lemma lowest_spec t : forall n fd x, lowest t fd n = Some x -> fd <= x < fd + Z.of_nat n /\ t x = None.
Proof.
  induction n as [|n IH]; intros fd x E; [discriminate E|]. cbn [lowest] in E. destruct (t fd) as [f|] eqn:T.
  - apply IH in E. destruct E as (E1 & E2). split; [lia|exact E2].
  - injection E as <-. split; [lia|exact T].
Qed.

Lemma lowest_found t : forall n fd x, fd <= x < fd + Z.of_nat n -> t x = None -> exists y, lowest t fd n = Some y.
Proof.
  induction n as [|n IH]; intros fd x H E; [lia|]. cbn [lowest]. destruct (t fd) as [f|] eqn:T; [|eexists; reflexivity].
  apply (IH (fd + 1) x); [|exact E]. destruct (Z.eq_dec x fd); [congruence|lia].
Qed.

Lemma closing_spec i o e : forall n t fd x,
  closing t i o e fd n x =
    if (fd <=? x) && (x <? fd + Z.of_nat n) && negb ((x =? 0) || (x =? 1) || (x =? 2) || (x =? i) || (x =? o) || (x =? e)) then None else t x.
Proof.
  induction n as [|n IH]; intros t fd x; [destruct (Z.leb_spec fd x), (Z.ltb_spec x (fd + Z.of_nat 0)); try reflexivity; lia|].
  cbn [closing]. rewrite IH. unfold set. destruct (Z.eq_dec x fd) as [->|N].
  - destruct (Z.leb_spec (fd + 1) fd); [lia|]. destruct (Z.leb_spec fd fd); [|lia]. destruct (Z.ltb_spec fd (fd + Z.of_nat (S n))); [|lia].
    cbn [andb]. destruct (_ || (fd =? e)); cbn [negb]; [reflexivity|]. rewrite Z.eqb_refl. reflexivity.
  - assert (E : ((fd + 1 <=? x) && (x <? fd + 1 + Z.of_nat n)) = ((fd <=? x) && (x <? fd + Z.of_nat (S n)))).
    { destruct (Z.leb_spec (fd + 1) x), (Z.leb_spec fd x), (Z.ltb_spec x (fd + 1 + Z.of_nat n)), (Z.ltb_spec x (fd + Z.of_nat (S n))); try reflexivity; lia. }
    rewrite E. destruct (_ && negb _); [reflexivity|].
    destruct (_ || (fd =? e)); [reflexivity|]. destruct (Z.eqb_spec x fd); [contradiction|reflexivity].
Qed.

(** A redirection when the stream is where it should be. *)
Lemma redirect_standard limit a b number r t : exists t',
  redirect limit a b number r t (Some (mkstream number true)) = Some (t', Some (mkstream number true)) /\
  (forall x, t' x = t x \/ t' x = Some (Path r)) /\
  (a = true -> b = true -> (exists y, 0 <= y < Z.of_nat limit /\ t y = None) ->
   forall x, t' x = if x =? number then Some (Path r) else t x).
Proof.
  unfold redirect. destruct (if a then lowest t 0 limit else None) as [fd|] eqn:L.
  - destruct a; [|discriminate L]. apply lowest_spec in L. destruct L as (L1 & L2). cbn [fileno bind live fileno_]. rewrite Z.eqb_refl.
    eexists. split; [reflexivity|]. unfold set. destruct (Z.eqb_spec fd number) as [->|N].
    + split; [intros x; destruct (x =? number); auto|]. intros _ _ _ x. reflexivity.
    + destruct b.
      * assert (E : forall x, (if x =? fd then None else if x =? number then Some (Path r) else if x =? fd then Some (Path r) else t x) =
                              (if x =? number then Some (Path r) else t x)).
        { intros x. destruct (Z.eqb_spec x fd) as [->|]; [|reflexivity]. destruct (Z.eqb_spec fd number); [contradiction|]. symmetry. exact L2. }
        split; [|intros _ _ _; exact E]. intros x. specialize (E x). destruct (x =? number); [right|left]; exact E.
      * split; [intros x; destruct (x =? fd); auto|]. intros _ Q. discriminate Q.
  - exists t. split; [reflexivity|]. split; [auto|]. intros -> _ (y & Y1 & Y2). exfalso.
    destruct (lowest_found t limit 0 y) as (z & Q); [lia|exact Y2|]. congruence.
Qed.

Lemma fileno_standard p : standard p -> fileno (stdin p) = Some 0 /\ fileno (stdout p) = Some 1 /\ fileno (stderr p) = Some 2.
Proof. intros (-> & -> & ->). auto. Qed.

(** All three. *)
Lemma sanitize_standard limit opens dups p : standard p -> exists t,
  sanitize limit true opens dups p = Some (mkprocess (closing t 0 1 2 0 COUNT) (stdin p) (stdout p) (stderr p)) /\
  (forall x, t x = descriptors p x \/ exists r, t x = Some (Path r)) /\
  ((forall x, opens x = true) -> (forall x, dups x = true) ->
   (exists y, 3 <= y < Z.of_nat limit /\ descriptors p y = None) ->
   forall x, t x = if x =? 2 then Some (Path false) else if x =? 1 then Some (Path false) else if x =? 0 then Some (Path true) else descriptors p x).
Proof.
  intros (S1 & S2 & S3). unfold sanitize. rewrite S1, S2, S3.
  destruct (redirect_standard limit (opens 0) (dups 0) 0 true (descriptors p)) as (t1 & E1 & A1 & B1).
  destruct (redirect_standard limit (opens 1) (dups 1) 1 false t1) as (t2 & E2 & A2 & B2).
  destruct (redirect_standard limit (opens 2) (dups 2) 2 false t2) as (t3 & E3 & A3 & B3).
  rewrite E1. cbn [bind]. rewrite E2. cbn [bind]. rewrite E3. cbn [bind fileno stdin stdout stderr descriptors live fileno_].
  exists t3. split; [reflexivity|]. split.
  - intros x. destruct (A3 x) as [->|E]; [|eauto]. destruct (A2 x) as [->|E]; [|eauto]. destruct (A1 x) as [->|E]; eauto.
  - intros O D (y & Y1 & Y2). specialize (B1 (O 0) (D 0) ltac:(exists y; split; [lia|exact Y2])).
    assert (Y3 : t1 y = None) by (rewrite B1; destruct (Z.eqb_spec y 0); [lia|exact Y2]).
    specialize (B2 (O 1) (D 1) ltac:(exists y; split; [lia|exact Y3])).
    assert (Y4 : t2 y = None) by (rewrite B2; destruct (Z.eqb_spec y 1); [lia|exact Y3]).
    specialize (B3 (O 2) (D 2) ltac:(exists y; split; [lia|exact Y4])).
    intros x. rewrite B3, B2, B1. reflexivity.
Qed.

Lemma closing_standard t x : closing t 0 1 2 0 COUNT x = if (3 <=? x) && (x <? 1024) then None else t x.
Proof.
  rewrite closing_spec. change (0 + Z.of_nat COUNT) with 1024.
  destruct (Z.leb_spec 0 x), (Z.leb_spec 3 x), (Z.ltb_spec x 1024), (Z.eqb_spec x 0), (Z.eqb_spec x 1), (Z.eqb_spec x 2); cbn [andb orb negb]; try reflexivity; lia.
Qed.
