(** Property theorems for the code sections. *)

From Coq Require Import ZArith List Bool Lia.
From Verif Require Import SectionModel SectionSpec SectionProofs.
Import ListNotations.
Local Open Scope Z_scope.

(** C86: however sections are nested, and whether code runs to its end, breaks out or is
    cancelled, it ends with the mutexes that it had: none is left locked, and none that it
    had is unlocked. *)
Theorem C86_mutexes : forall c e o e', eval c e = Some (o, e') -> over o -> mutexes e' = mutexes e.
Proof. intros c e o e' H. exact (proj1 (eval_kept c e o e' H)). Qed.
Print Assumptions C86_mutexes.

(** C86: and with the signal mask that it had, whatever was done to the mask in
    uninterruptible sections. *)
Theorem C86_mask : forall c e o e', possible (mask e) -> scoped c -> eval c e = Some (o, e') -> over o -> mask e' = mask e.
Proof. intros c e o e' P S. exact (scoped_mask c e o e' S P). Qed.
Print Assumptions C86_mask.

(** C86: the spin locks are released if the code runs to its end, or breaks out. *)
Theorem C86_spins : forall c e o e', eval c e = Some (o, e') ->
  o = Done \/ o = Broken \/ cleaned c -> spins e' = spins e.
Proof.
  intros c e o e' H [Q|[Q|Q]]; [apply (proj2 (eval_kept c e o e' H)); tauto|apply (proj2 (eval_kept c e o e' H)); tauto|exact (cleaned_spins c e o e' Q H)].
Qed.
Print Assumptions C86_spins.

(** C86: all that is done in a section is done with its mutex or spin lock held, or with its
    signals blocked, less those two that cannot be; and with all that the sections around it
    hold and block. *)
Theorem C86_inside : forall c k body e o e', c = Begin k body \/ (exists taken, c = Try k taken body) -> eval c e = Some (o, e') ->
  exists l, trace e' = trace e ++ l /\
    Forall (fun '(_, m, mu, sp) => incl (mutexes e) mu /\ incl (spins e) sp /\
      match k with Critical x => In x mu | Serialized x => In x sp | Uninterruptible _ => True end /\
      (untouched body -> possible (mask e) -> keeps (mask e) m /\
         match k with Uninterruptible signals => forall s, In s signals -> s <> 9 -> s <> 19 -> Z.testbit m s = true | _ => True end)) l.
Proof.
  intros c k body e o e' C H. destruct (section_inv _ _ _ _ _ _ C H) as [(-> & _)|(t & e1 & EN & CL)]; [exists []; rewrite app_nil_r; split; [reflexivity|constructor]|].
  destruct (eval body e1) as [(o1, e2)|] eqn:EB; [|discriminate CL]. destruct (enter_facts _ _ _ _ EN) as (ET & IM & IS & KE & PO & K).
  destruct (eval_trace _ _ _ _ EB) as (l & T & F). exists l. rewrite (close_trace _ _ _ _ _ _ CL), T, ET. split; [reflexivity|]. rewrite Forall_forall in *. intros (((n, m), mu), sp) I. destruct (F _ I) as (A & B).
  split; [eapply incl_tran; eassumption|]. split; [eapply incl_tran; eassumption|]. split; [destruct k; [exact Logic.I|apply A, K|apply B, K]|].
  intros U P. destruct (eval_blocked _ _ _ _ U (PO P) EB) as (l' & T' & F'). rewrite T in T'. apply app_inv_head in T'. subst l'. rewrite Forall_forall in F'. specialize (F' _ I). cbn in F'.
  split; [intros s S; apply F', KE, S|]. destruct k as [sg| |]; [|exact Logic.I|exact Logic.I]. intros s S N9 N19. apply F'. exact (proj2 K s S N9 N19).
Qed.
Print Assumptions C86_inside.

(** C86: a section that is tried and cannot be had is passed over, and nothing is changed;
    an uninterruptible one cannot be had just if one of its signals is not a signal, and to
    begin it then ends the process. *)
Theorem C86_refused : forall e body,
  (forall signals taken, ~ Forall signal signals -> eval (Try (Uninterruptible signals) taken body) e = Some (Done, e) /\ eval (Begin (Uninterruptible signals) body) e = Some (Aborted, e)) /\
  (forall signals taken, Forall signal signals -> exists e1, enter (Uninterruptible signals) taken e = Entered e1) /\
  (forall x taken, taken = true \/ In x (mutexes e) -> eval (Try (Critical x) taken body) e = Some (Done, e)) /\
  (forall x taken, taken = true \/ In x (spins e) -> eval (Try (Serialized x) taken body) e = Some (Done, e)).
Proof.
  intros e body. assert (ME : forall x l taken, taken = true \/ In x l -> taken || memb x l = true).
  { intros x l taken [->|I]; [reflexivity|]. apply orb_true_iff. right. apply existsb_exists. exists x. split; [exact I|apply Z.eqb_refl]. }
  split; [|split; [|split]].
  - intros signals taken N. cbn [eval enter]. rewrite (proj1 (block_none (mask e) signals) N). split; reflexivity.
  - intros signals taken F. cbn [enter]. destruct (block (mask e) signals) eqn:B; [eauto|]. apply block_none in B. tauto.
  - intros x taken Q. cbn [eval enter]. rewrite ME by exact Q. reflexivity.
  - intros x taken Q. cbn [eval enter]. rewrite ME by exact Q. reflexivity.
Qed.
Print Assumptions C86_refused.

(** C86: a break in a section ends that section and nothing else, so that what comes after
    the section is done: it does not break out of a loop that the section is in. *)
Theorem C86_break : forall k taken e e1 after, enter k taken e = Entered e1 -> eval (Try k taken Break) e = Some (Done, leave k (mask e) e1) /\
  eval (Seq (Try k taken Break) after) e = eval after (leave k (mask e) e1).
Proof. intros k taken e e1 after H. cbn [eval]. rewrite H. split; reflexivity. Qed.
Print Assumptions C86_break.

(** C86: code that is neither cancelled nor returns is never undefined, and if it does not
    end the process or wait for itself it ends with all its locks as they were. *)
Theorem C86_undisturbed : forall c e, undisturbed c -> exists o e', eval c e = Some (o, e') /\
  (o = Aborted \/ o = Hung \/ ((o = Done \/ o = Broken) /\ mutexes e' = mutexes e /\ spins e' = spins e)).
Proof.
  intros c e U. destruct (undisturbed_outcome c e U) as (o & e' & H & A & B). exists o, e'. split; [exact H|]. destruct (eval_kept c e o e' H) as (M & S).
  destruct o; try congruence; try tauto; right; right; (split; [tauto|]; split; [apply M; split; discriminate|apply S; tauto]).
Qed.
Print Assumptions C86_undisturbed.

(** C86: to return from inside a section with a cleanup handler is undefined; and from a
    serialized one leaves it locked, as does cancellation, and the thread then waits for
    itself if it comes there again. *)
Theorem C86_return_refuted : forall e x signals, ~ In x (mutexes e) -> ~ In x (spins e) -> Forall signal signals ->
  eval (Begin (Critical x) Return) e = None /\ eval (Begin (Uninterruptible signals) Return) e = None /\
  exists e', eval (Begin (Serialized x) Return) e = Some (Returned, e') /\ spins e' = x :: spins e /\ (forall body, eval (Begin (Serialized x) body) e' = Some (Hung, e')) /\
    eval (Begin (Serialized x) Cancel) e = Some (Cancelled, e').
Proof.
  intros e x signals N1 N2 F. assert (M : forall l, ~ In x l -> memb x l = false).
  { intros l N. destruct (memb x l) eqn:E; [|reflexivity]. apply existsb_exists in E. destruct E as (y & I & Q). apply Z.eqb_eq in Q. subst y. tauto. }
  cbn [eval enter]. rewrite (M _ N1), (M _ N2). cbn [orb]. split; [reflexivity|]. split.
  - destruct (block (mask e) signals) eqn:B; [reflexivity|]. apply block_none in B. tauto.
  - eexists. split; [reflexivity|]. split; [reflexivity|]. split; [|reflexivity]. intros body. cbn. rewrite Z.eqb_refl. reflexivity.
Qed.
Print Assumptions C86_return_refuted.

(** C86: SIGKILL and SIGSTOP may be given, and are not blocked. *)
Theorem C86_unblockable_refuted : forall e, possible (mask e) -> exists e', eval (Begin (Uninterruptible [9; 19]) (Work 1)) e = Some (Done, e') /\
  trace e' = trace e ++ [(1, mask e, mutexes e, spins e)].
Proof.
  intros e P. cbn [eval enter]. assert (B : block (mask e) [9; 19] = Some (mask e)).
  { destruct (block (mask e) [9; 19]) as [m|] eqn:B; [|apply block_none in B; exfalso; apply B; repeat (apply Forall_cons; [red; lia|]); apply Forall_nil].
    f_equal. apply Z.bits_inj'. intros s _. rewrite (proj2 (block_bits _ _ _ B)). cbn [existsb]. destruct (s =? 9), (s =? 19); cbn; rewrite ?orb_false_r; reflexivity. }
  rewrite B. eexists. split; reflexivity.
Qed.
Print Assumptions C86_unblockable_refuted.

(** A thread with SIGHUP blocked and a mutex: an uninterruptible section, in which the mask
    is set, around a critical one in which it is cancelled. *)
Example C86_example :
  let e := Env 2 [7] [] [] in
  let body := Seq (Work 1) (Seq (Begin (Critical 8) (Seq (Work 2) Cancel)) (Work 3)) in
  let c := Begin (Uninterruptible [2; 15]) (Seq body (Setmask 0)) in
  possible (mask e) /\ scoped c /\ ~ untouched c /\ untouched body /\ Forall signal [2; 15] /\ over Cancelled /\
  eval c e = Some (Cancelled, Env 2 [7] [] [(1, 32774, [7], []); (2, 32774, [8; 7], [])]).
Proof.
  cbv zeta. repeat split; try discriminate; try reflexivity; try exact I.
  - cbn. tauto.
  - repeat (apply Forall_cons; [red; lia|]); apply Forall_nil.
Qed.
