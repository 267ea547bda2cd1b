(** C97: the environment, used by several threads. *)

From Coq Require Import ZArith List Bool Lia.
From Verif Require Import CInt CUtil ReaderwriterModel ReaderwriterSpec EnvironmentModel EnvironmentSpec EnvironmentProofs.
Import ListNotations.
Local Open Scope Z_scope.

(** However many threads use the environment, and however they are scheduled, whatever a
    thread does next is defined: no function of the C library that changes the environment is
    ever at work together with another one, and no assertion of the lock fails. *)
Theorem C97_safe : forall E getenv_ modify (e0 : E) tr h s m,
  execution getenv_ modify e0 tr h s -> may tr s m ->
  exists s' es n, estep getenv_ modify s m = Some (s', es, n).
Proof.
  intros E getenv_ modify e0 tr h s m X M. apply execution_good in X.
  destruct (step_good getenv_ modify e0 tr h s m X M) as (s' & es & n & S & _). eauto.
Qed.
Print Assumptions C97_safe.

(** The same, seen at any moment. *)
Theorem C97_alone : forall E getenv_ modify (e0 : E) tr h s t u o p,
  execution getenv_ modify e0 tr h s -> thread s t = Inside o -> thread s u = Inside p -> t <> u ->
  exists n k, o = Get n /\ p = Get k.
Proof.
  intros E getenv_ modify e0 tr h s t u o p X T U N. apply execution_good in X. destruct X as [_ GR GP _ _ _].
  pose proof (GP t) as PT. pose proof (GP u) as PU. rewrite T in PT. rewrite U in PU. cbn [place] in *. destruct PT as (_ & PT), PU as (_ & PU).
  destruct (ReaderwriterProps.C20_exclusion tr (lock s) GR) as ([WE|(x & WE & RE)] & _).
  - destruct PT as [(R1 & _)|(_ & Y)]; [|rewrite WE in Y; destruct Y]. destruct PU as [(R2 & _)|(_ & Y)]; [|rewrite WE in Y; destruct Y].
    destruct o; try discriminate. destruct p; try discriminate. eauto.
  - destruct PT as [(_ & Y)|(_ & Y)]; [rewrite RE in Y; destruct Y|]. destruct PU as [(_ & Z)|(_ & Z)]; [rewrite RE in Z; destruct Z|].
    rewrite WE in Y, Z. destruct Y as [Y|[]], Z as [Z|[]]. congruence.
Qed.
Print Assumptions C97_alone.

(** The calls have the same effects and the same results as if they had been made one after
    another, in the order in which they took effect. *)
Theorem C97_order : forall E getenv_ modify (e0 : E) tr h s,
  execution getenv_ modify e0 tr h s -> sequential getenv_ modify e0 h = Some (env s).
Proof. intros E getenv_ modify e0 tr h s X. apply execution_good in X. apply (G_env _ _ _ _ _ _ X). Qed.
Print Assumptions C97_order.

(** Each call takes effect once, after it is made and before it returns, and returns what
    that gave; or it returns a failure and has no effect. *)
Theorem C97_calls : forall E getenv_ modify (e0 : E) tr h s t,
  execution getenv_ modify e0 tr h s -> exists x, sees t h x.
Proof. intros E getenv_ modify e0 tr h s t X. apply execution_good in X. eexists. apply (G_seen _ _ _ _ _ _ X). Qed.
Print Assumptions C97_calls.

(** Nobody waits in vain: if a thread waits for the lock, there is a thread in its section,
    which can take its next step, or there is one that has been given the lock and that
    enters its section as soon as it runs. *)
Theorem C97_progress : forall E getenv_ modify (e0 : E) tr h s t o,
  execution getenv_ modify e0 tr h s -> thread s t = Waiting o ->
  exists u, (exists p, thread s u = Holds p \/ thread s u = Inside p \/ exists r, thread s u = Leaving p r) \/
    exists p s' es n, thread s u = Waiting p /\ estep getenv_ modify s (Resume u 0) = Some (s', es, n) /\ thread s' u = Holds p.
Proof.
  intros E getenv_ modify e0 tr h s t o X T. pose proof (execution_owners _ _ _ _ _ _ X) as (_ & _ & OR & OW).
  apply execution_good in X. destruct X as [GI GR GP _ _ _].
  destruct (ReaderwriterProps.C21_handover tr (lock s) GR) as (H1 & H2).
  assert (SEC : forall u r, section_of (thread s u) = Some r -> exists p, thread s u = Holds p \/ thread s u = Inside p \/ exists r, thread s u = Leaving p r).
  { intros u r. destruct (thread s u); cbn [section_of]; intros K; try discriminate; eauto 6. }
  assert (GRANT : forall u r, In (u, r) (granted tr) -> exists p s' es n, thread s u = Waiting p /\ estep getenv_ modify s (Resume u 0) = Some (s', es, n) /\ thread s' u = Holds p).
  { intros u r I. destruct (H2 u r I) as (W & K). destruct (K 0) as (lk & S). pose proof (GP u) as PU.
    destruct (thread s u) as [|p|p|p|p q] eqn:TU; cbn [place] in PU; try congruence; try (destruct PU; congruence).
    eexists p, _, _, _. split; [reflexivity|]. cbn [estep]. rewrite TU, S. cbn [bind]. unfold after_begin. cbn [begun_value]. change (0 =? 0) with true.
    split; [reflexivity|]. cbn [thread]. apply at_same. }
  pose proof (GP t) as PT. rewrite T in PT. cbn [place] in PT. destruct PT as (w & PT).
  destruct (wt_waits tr (lock s) t (role_of o) GI) as (_ & WT). destruct WT as [I|I]; [eauto| |exists t; right; exact (GRANT t _ I)].
  assert (NE : pending tr <> []) by (intros K; rewrite K in I; exact I). destruct (H1 NE) as [K|[K|K]].
  - destruct (readers tr) as [|u l]; [contradiction|]. exists u. left. apply (SEC u READER). apply OR. left. reflexivity.
  - destruct (writers tr) as [|u l]; [contradiction|]. exists u. left. apply (SEC u WRITER). apply OW. left. reflexivity.
  - destruct (granted tr) as [|(u & r) l]; [contradiction|]. exists u. right. apply (GRANT u r). left. reflexivity.
Qed.
Print Assumptions C97_progress.

(** An environment of one variable, which is its value. *)
Definition one_get (n : list Z) (e : Z) : Z := e.
Definition one_modify (o : op) (e : Z) : Z * Z := match o with Set_ _ (v :: _) true => (v, 0) | Unset _ => (0, 0) | _ => (e, 0) end.
Definition name : list Z := [65].
Definition moves : list move :=
  [Call 1 (Get name) true; Call 2 (Set_ name [7] true) true; Enter 1; Call 3 (Get name) true; Resume 3 0; Exit 1; Return 1;
   Resume 2 0; Enter 2; Call 4 (Unset name) false; Exit 2; Return 2; Resume 3 0; Enter 3; Exit 3; Return 3].

(** The string that get gives to its caller is not protected: it is in the environment, and
    another thread may be changing that when the caller reads it. *)
Theorem C97_string_refuted :
  ~ (forall E getenv_ modify (e0 : E) tr h s t n r u o,
       execution getenv_ modify e0 tr h s -> In (Returned t (Get n) r) h -> ~ In (Called t (Get n)) (tl h) ->
       thread s u = Inside o -> forall v w, o <> Set_ n v w).
Proof.
  intros H. destruct (eplay one_get one_modify [] [] (Sys init 5 (fun _ => Idle) []) (firstn 9 moves)) as [[[tr h] s]|] eqn:P; [|vm_compute in P; discriminate].
  assert (Q := f_equal (option_map (fun r => (snd (fst r), thread (snd r) 2))) P). vm_compute in Q. injection Q as Qh Qt.
  pose proof (eplay_ok one_get one_modify 5 _ _ _ _ _ (E_start one_get one_modify 5) P) as X. cbn [fst snd] in X.
  apply (H Z one_get one_modify 5 tr h s 1 name 5 2 (Set_ name [7] true) X) with (v := [7]) (w := true); subst h.
  - cbn. tauto.
  - cbn. intuition discriminate.
  - symmetry. exact Qt.
  - reflexivity.
Qed.
Print Assumptions C97_string_refuted.

(** A case in which the hypotheses hold: four threads, one of which cannot have the lock. *)
Example C97_example :
  match eplay one_get one_modify [] [] (Sys init 5 (fun _ => Idle) []) moves with
  | Some (tr, h, s) => env s = 7 /\
      h = [Called 1 (Get name); Called 2 (Set_ name [7] true); Called 3 (Get name); Effect 1 (Get name) 5; Returned 1 (Get name) 5;
           Called 4 (Unset name); Returned 4 (Unset name) (-1); Effect 2 (Set_ name [7] true) 0; Returned 2 (Set_ name [7] true) 0;
           Effect 3 (Get name) 7; Returned 3 (Get name) 7]
  | None => False
  end.
Proof. vm_compute. split; reflexivity. Qed.
