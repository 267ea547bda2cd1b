(** Property C55. *)

From Coq Require Import ZArith List Bool Arith Lia.
From Verif Require Import CUtil CInt TimerModel TimerSpec TimerProofs TimerProofs2.
Import ListNotations.
Local Open Scope Z_scope.

(** In every interleaving of a timer's threads with its callers, as long as it is started
    only when known to be at rest: nothing is undefined; the function is called only with
    the context of the newest start, once if the timer is not periodic, and never while it
    still runs; once a stop has succeeded or the state has been seen to be IDLE, it does not
    run and is not called until the next start. *)
Theorem C55_conforms : forall p l, conforms p (initial p) r_initial l.
Proof. intros p l. exact (conforms_ok p l _ _ (rel_initial p)). Qed.
Print Assumptions C55_conforms.

(** A stop that waits, waits for something: the state is DISARM, not IDLE. So no wakeup is
    lost. *)
Theorem C55_no_lost_wakeup : forall p w r i, reachable anything p w r -> callers w i = Asleep -> state w = DISARM.
Proof.
  intros p w r i R C. apply reachable_rel in R as (_ & t & _ & B). destruct (busy r) as [j|].
  - destruct B as (O & K). destruct (Nat.eq_dec i j) as [<- |N]; [|rewrite O in C by assumption; discriminate]. rewrite C in K. exact (c_pl _ _ _ _ _ _ _ _ K).
  - destruct B as (O & _). rewrite O in C. discriminate.
Qed.
Print Assumptions C55_no_lost_wakeup.

(** And what it waits for can come: if the timer was never started with a time of zero, then
    from every state in which a stop waits, the timer and its threads alone lead to its
    success. *)
Theorem C55_stop_can_succeed : forall p w r i, reachable positive p w r -> callers w i = Asleep ->
  exists l w' es, Forall (waits i) l /\ run w l = Some (w', es ++ [StopReturns i true]).
Proof. intros p w r i R C. exact (stop_ends p w r i R C). Qed.
Print Assumptions C55_stop_can_succeed.

(** From any state: a timer that was finalized does not expire any more. *)
Theorem C55_fini_final : forall w w1 e l w2 es, step w Fini = Does w1 e -> run w1 l = Some (w2, es) -> ~ In Expires es.
Proof.
  intros w w1 e l w2 es F. cbn [step] in F. unfold fini in F. destruct (deleted w); [discriminate|]. injection F as <- <-. apply deleted_run; reflexivity.
Qed.
Print Assumptions C55_fini_final.

(** How long a stop waits: twice the time, and at least a second. *)
Theorem C55_window : forall interval, 0 <= interval < 2^63 -> window interval = Z.max 1000000000 (2 * interval).
Proof. exact window_ok. Qed.
Print Assumptions C55_window.

(** Those who always use diminuto_timer_setitimer for the same kind of timer get what they
    ask for: the time to the first expiration, and between expirations that time or none. *)
Theorem C55_setitimer : forall p (l : list (Z * bool)), Forall (fun x => snd x = p /\ 0 <= fst x) l ->
  Forall2 (fun (x : Z * bool) (y : Z * Z) => fst y = fst x /\ (0 < fst x -> snd y = if p then fst x else 0)) l (setitimers (Singleton None 0) l).
Proof. intros p l F. apply setitimers_ok; auto. Qed.
Print Assumptions C55_setitimer.

(** A timer started with a context, that expires, calls its function, and is seen IDLE; then
    is started again, and is stopped before it expires: the function is not called. *)
Definition once_then_stopped : list action :=
  [Start 0 7 5; Step 0; Expire 3; Proceed 3; Proceed 3; GetState; Proceed 3; Proceed 3; GetState;
   Start 1 8 5; Step 1; Stop 2; Expire 4; Proceed 4; Proceed 4; Proceed 4; Step 2; Step 2].
Example C55_example : option_map (fun x => (state (fst x), snd x)) (run (initial false) once_then_stopped) =
  Some (IDLE, [Starts 0 7; StartReturns 0; Expires; Silent; Calls 7; Is ARM; Returns 7; Silent; Is IDLE;
               Starts 1 8; StartReturns 1; Stops 2; Expires; Silent; Silent; Silent; Silent; StopReturns 2 true]).
Proof. vm_compute. reflexivity. Qed.
(** A state in which a stop waits, while the function of a periodic timer runs. *)
Example C55_waits : exists w r, reachable positive true w r /\ callers w 2 = Asleep /\ running r = true.
Proof.
  eexists. eexists. split; [|split].
  - eapply (reach_step _ _ _ _ (Stop 2)). 1: eapply (reach_step _ _ _ _ (Proceed 3)). 1: eapply (reach_step _ _ _ _ (Proceed 3)). 1: eapply (reach_step _ _ _ _ (Expire 3)). 1: eapply (reach_step _ _ _ _ (Step 0)). 1: eapply (reach_step _ _ _ _ (Start 0 7 5)). 1: apply reach_initial.
    all: first [exact I | reflexivity | cbn; auto].
  - reflexivity.
  - reflexivity.
Qed.
Example C55_setitimers : setitimers (Singleton None 0) [(5, true); (0, true); (7, true)] = [(5, 5); (0, 5); (7, 7)].
Proof. reflexivity. Qed.

(** Without the conditions. A timer that is not periodic and is started again by its own
    function is IDLE when that returns; so the function is not called again, although the
    timer expires. *)
Theorem C55_restart_refuted : option_map (fun x => (armed (fst x), snd x)) (run (initial false) [Start 0 7 5; Step 0; Expire 0; Proceed 0; Proceed 0; Start 1 8 5; Step 1; Proceed 0; Proceed 0; Expire 0; Proceed 0; Proceed 0; Proceed 0]) =
  Some (false, [Starts 0 7; StartReturns 0; Expires; Silent; Calls 7; Starts 1 8; StartReturns 1; Returns 7; Silent; Expires; Silent; Silent; Silent]).
Proof. vm_compute. reflexivity. Qed.
Print Assumptions C55_restart_refuted.

(** To stop again after a stop has timed out succeeds at once, although the function runs. *)
Theorem C55_stop_again_refuted : option_map (fun x => (threads (fst x) 0%nat, snd x)) (run (initial false) [Start 0 7 5; Step 0; Expire 0; Proceed 0; Proceed 0; Stop 1; Timeout 1; Step 1; Stop 1; Step 1]) =
  Some (Inside 7, [Starts 0 7; StartReturns 0; Expires; Silent; Calls 7; Stops 1; Silent; StopReturns 1 false; Stops 1; StopReturns 1 true]).
Proof. vm_compute. reflexivity. Qed.
Print Assumptions C55_stop_again_refuted.

(** If a periodic timer expires again while its function runs, it is called again at the
    same time; and a stop succeeds as soon as one of the calls returns. *)
Theorem C55_overlap_refuted : option_map (fun x => (threads (fst x) 1%nat, snd x)) (run (initial true) [Start 0 7 5; Step 0; Expire 0; Proceed 0; Proceed 0; Expire 1; Proceed 1; Proceed 1; Stop 2; Proceed 0; Proceed 0; Step 2; Step 2]) =
  Some (Inside 7, [Starts 0 7; StartReturns 0; Expires; Silent; Calls 7; Expires; Silent; Calls 7; Stops 2; Returns 7; Silent; Silent; StopReturns 2 true]).
Proof. vm_compute. reflexivity. Qed.
Print Assumptions C55_overlap_refuted.

(** A periodic timer may expire between the end of a stop's wait and its setting the time to
    zero. The thread then uses the timer even if the caller, told of success, has finalized
    it. *)
Theorem C55_fini_refuted : option_map (fun x => (match step (fst x) (Proceed 0) with Undefined => true | _ => false end, snd x)) (run (initial true) [Start 0 7 5; Step 0; Stop 1; Expire 0; Proceed 0; Proceed 0; Proceed 0; Step 1; Expire 0; Step 1; Fini]) =
  Some (true, [Starts 0 7; StartReturns 0; Stops 1; Expires; Silent; Silent; Silent; Silent; Expires; StopReturns 1 true; Ends]).
Proof. vm_compute. reflexivity. Qed.
Print Assumptions C55_fini_refuted.

(** The function may call stop, says its comment; but of a timer that is not periodic, no
    such stop succeeds, whatever happens: it waits for what comes only after the function. *)
Theorem C55_stop_inside_refuted : forall i l w w' es, run (initial false) [Start 0 7 5; Step 0; Expire 0; Proceed 0; Proceed 0; Stop i] = Some (w, [Starts 0 7; StartReturns 0; Expires; Silent; Calls 7; Stops i]) ->
  Forall (within i 0%nat) l -> run w l = Some (w', es) -> ~ In (StopReturns i true) es.
Proof.
  intros i l w w' es H F R. eapply stuck_run; [|exact F|exact R]. cbn [run step] in H. unfold start in H. cbn in H. unfold stop in H. cbn in H.
  destruct i as [|i]; cbn in H; injection H as <-; unfold stuck; cbn.
  - repeat (split; [first [reflexivity | exists 7; reflexivity | intros [|u] X; [contradiction|reflexivity] | discriminate]|]). intros b; discriminate.
  - repeat (split; [first [reflexivity | exists 7; reflexivity | intros [|u] X; [contradiction|reflexivity] | rewrite Nat.eqb_refl; discriminate]|]). intros b. rewrite Nat.eqb_refl; discriminate.
Qed.
Print Assumptions C55_stop_inside_refuted.

(** A timer started with a time of zero never expires, so the stop of it times out. *)
Theorem C55_zero_refuted : exists w, run (initial false) [Start 0 7 0; Step 0; Stop 0] = Some (w, [Starts 0 7; StartReturns 0; Stops 0]) /\ callers w 0%nat = Asleep /\ forall t, step w (Expire t) = Disabled /\ step w (Proceed t) = Disabled.
Proof. eexists. split; [reflexivity|]. split; [reflexivity|]. intros t. split; reflexivity. Qed.
Print Assumptions C55_zero_refuted.

(** Whether diminuto_timer_setitimer makes a periodic timer is settled by its first call. *)
Theorem C55_setitimer_refuted : setitimers (Singleton None 0) [(5, true); (7, false)] = [(5, 5); (7, 7)] /\ setitimers (Singleton None 0) [(5, false); (7, true)] = [(5, 0); (7, 0)].
Proof. split; reflexivity. Qed.
Print Assumptions C55_setitimer_refuted.

(** With a time of 2^63 or more a stop waits for less than the time. *)
Theorem C55_window_refuted : forall interval, 2^63 <= interval < 2^64 -> window interval < interval.
Proof.
  intros interval H. unfold window. assert (u64 (interval * 2) = interval * 2 - 2^64) as -> by (unfold u64; symmetry; apply (Z.mod_unique _ _ 1); lia).
  destruct (Z.ltb_spec (interval * 2 - 2^64) 1000000000); lia.
Qed.
Print Assumptions C55_window_refuted.
