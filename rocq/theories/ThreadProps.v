(** Property C54. *)

From Coq Require Import ZArith List Bool Arith Lia.
From Verif Require Import CUtil CInt ThreadModel ThreadSpec ThreadProofs ThreadProofs2.
Import ListNotations.
Local Open Scope Z_scope.

(** In every interleaving of the thread with its callers, as long as one caller at a time
    starts, joins or finalizes, and not too many notifications wait: nothing is undefined
    (no thread is joined twice, or signalled when it is gone), and what is seen is what is
    seen of a thread that is started with its context, is called, ends, terminates and is
    joined, in this order and once each. *)
Theorem C54_conforms : forall signals h l, conforms (initial signals h) h r_initial l.
Proof. intros signals h l. exact (conforms_ok l signals _ _ _ (rel_initial signals h)). Qed.
Print Assumptions C54_conforms.

(** Put about the past: whenever a join returns a value, then since it was last started the
    function was called exactly once, with the context given to start; it ended with that
    value; and the thread has terminated and been joined once. *)
Theorem C54_join_value : forall signals h w last r es i rc v w' , reachable signals h w last r es ->
  step w (JoinStep i) = Does w' (JoinReturns i rc (Some v)) ->
  rc = 0 /\ exists c t, fate es = (Some (c, t), [Called c; Ended v; Dies t v; JoinDone v]).
Proof.
  intros signals h w last r es i rc v w' H E. apply reachable_rel in H as (R & T & _). pose proof (all_good _ _ _ _ (JoinStep i) R eq_refl) as G. rewrite E in G. destruct G as (r' & O & _).
  cbn [observe newest] in O. destruct (joining r) as [[[j me] t]|]; [|discriminate]. destruct (negb (Nat.eqb i j)); [discriminate|]. unfold told in T. destruct (l_life r) as [| | | |u|]; try discriminate.
  destruct (Z.eqb_spec rc 0) as [-> |]; [|discriminate]. destruct (Z.eqb_spec u v) as [-> |]; [|discriminate]. auto.
Qed.
Print Assumptions C54_join_value.

(** No notification is lost: those accepted since the thread was started are those it took
    and those that wait for it; and when it takes, it gets all that wait. *)
Theorem C54_notifications : forall signals h w last r es, reachable signals h w last r es ->
  fst (tallied es) = snd (tallied es) + notifications w /\
  forall w' n, step w WorkerTake = Does w' (Took n) -> n = notifications w /\ notifications w' = 0.
Proof.
  intros signals h w last r es H. apply reachable_rel in H as (R & _ & B). rewrite (counted _ _ _ _ R). split; [exact B|].
  intros w' n E. pose proof (all_good _ _ _ _ WorkerTake R eq_refl) as G. rewrite E in G. destruct G as (r' & O & R'). cbn [observe newest] in O.
  destruct (l_life r) as [|c t []| | | |]; try discriminate. destruct (Z.eqb_spec n (pending r)) as [-> |]; [|discriminate]. split; [reflexivity|]. rewrite (counted _ _ _ _ R'). assert (r' = Ref (Alive c t InFunction) 0 (joining r)) as -> by congruence. reflexivity.
Qed.
Print Assumptions C54_notifications.

(** No wakeup is lost: who sleeps in a join does so while the thread has yet to leave, and
    it will wake them when it does. *)
Theorem C54_no_lost_wakeup : forall signals h w last r es i me timed, reachable signals h w last r es ->
  callers w i = Asleep me timed -> (state w = STARTED \/ state w = RUNNING) /\ exists t s, current w = Some (Worker t s) /\ match s with Created | Ready | Inside | Leaving _ _ => True | _ => False end.
Proof.
  intros signals h w last r es i me timed H E. apply reachable_rel in H as (R & _). destruct R as [C La Co Bo Li Pl]. destruct (joining r) as [[[j m] t]|]; [|destruct Pl as (O & _); rewrite O in E; discriminate].
  destruct Pl as (O & P). destruct (Nat.eq_dec i j) as [-> |N]; [|rewrite O in E by assumption; discriminate]. rewrite E in P. cbn [placed] in P. destruct P as (_ & _ & _ & K & S). split; [exact S|].
  unfold living in Li. destruct (l_life r) as [[|]|c t0 [| |]|v t0 [|]|v t0|v|]; facts; try congruence; eexists; eexists; (split; [eassumption|exact I]).
Qed.
Print Assumptions C54_no_lost_wakeup.
(** And nobody is stuck: while a join is under way, the one who joins or the thread has a
    step to make; once the thread has terminated, five steps of the one who joins are enough
    for it to return the value. *)
Theorem C54_not_stuck : forall signals h w last r es i me timed, reachable signals h w last r es -> joining r = Some (i, me, timed) ->
  (exists w' e, step w (JoinStep i) = Does w' e) \/ (exists a w' e, of_thread a = true /\ step w a = Does w' e).
Proof. intros signals h w last r es i me timed H J. apply reachable_rel in H as (R & _). exact (not_stuck _ _ _ _ _ _ _ R J). Qed.
Print Assumptions C54_not_stuck.
Theorem C54_join_completes : forall signals h w last r es i me v t, reachable signals h w last r es -> joining r = Some (i, me, false) -> me <> last -> l_life r = Terminated v t ->
  exists n w' es', (n <= 5)%nat /\ run w (repeat (JoinStep i) n) = Some (w', es' ++ [JoinReturns i 0 (Some v)]).
Proof.
  intros signals h w last r es i me v t H J N L. apply reachable_rel in H as (R & _). destruct (last_steps _ _ _ _ _ _ _ _ R J N L) as (n & Ln & w' & es' & E). exists n, w', es'. auto.
Qed.
Print Assumptions C54_join_completes.

(** A thread is started, notified while being joined, ends by way of diminuto_thread_exit,
    and is started again. *)
Definition demo : list action :=
  [Start 7 true (Some 100); Notify; JoinBegin 1 50 false; WorkerRun; JoinStep 1; WorkerCall; Notify; WorkerTake; Notify; JoinStep 1; WorkerEnd Exit 33; Notify; JoinStep 1; WorkerLeave; Notify; JoinStep 1; JoinStep 1; WorkerLeave; WorkerDie].
Example C54_example :
  option_map (fun '(w, last, r, es) => (l_life r, joining r, pending r, last, es)) (r_run (initial true 0) 0 r_initial demo) =
    Some (Terminated 33 100, Some (1%nat, 50, false), 2, 100,
      [Started 7 100; Notified (Some 100); Joins 1 50 false; Runs; Silent; Called 7; Notified (Some 100); Took 2; Notified (Some 100); Silent; Ended 33; Notified (Some 100); Silent; Leaves; NotNotified; Silent; Silent; Leaves; Dies 100 33]) /\
  option_map (fun '(w, last, r, es) => (l_life r, skipn 19 es)) (r_run (initial true 0) 0 r_initial (demo ++ [JoinStep 1; JoinStep 1; JoinStep 1; GetState; Start 8 true None; Start 9 true (Some 100); GetState; JoinBegin 2 50 true; WorkerRun; Timeout 2; JoinStep 2; WorkerCall; JoinStep 2; Fini])) =
    Some (Alive 9 100 InFunction, [Silent; JoinDone 33; JoinReturns 1 0 (Some 33); Is JOINED; NotStarted true; Started 9 100; Is STARTED; Joins 2 50 true; Runs; Silent; Silent; Called 9; JoinReturns 2 TIMEDOUT None; Finalized false]).
Proof. split; vm_compute; reflexivity. Qed.

(** Two callers that join at the same time: when the first has joined, the second sleeps
    for good, unless the thread is started again. *)
Theorem C54_second_joiner_refuted : exists l w es i, run (initial true 0) l = Some (w, es) /\ In (JoinReturns 1 0 (Some 33)) es /\ current w = None /\ callers w i <> Out /\
  forall l' w' es', forallb (fun a => negb (is_start a)) l' = true -> run w l' = Some (w', es') -> callers w' i <> Out.
Proof.
  pose (l := [Start 7 true (Some 100); WorkerRun; WorkerCall; JoinBegin 1 50 false; JoinBegin 2 51 false; WorkerEnd Return 33; WorkerLeave; WorkerDie; JoinStep 1; JoinStep 1; JoinStep 1; JoinStep 1; JoinStep 1; JoinStep 2]).
  destruct (run (initial true 0) l) as [[w es]|] eqn:E; [|vm_compute in E; discriminate].
  assert (F : forgotten w 2 /\ In (JoinReturns 1 0 (Some 33)) es).
  { vm_compute in E. injection E as <- <-. split; [unfold forgotten; cbn; split; [auto|split; [auto|exists 51; auto]]|cbn; tauto]. }
  destruct F as (F & I). exists l, w, es, 2%nat. split; [exact E|]. split; [exact I|]. split; [exact (proj1 (proj2 F))|]. split; [destruct F as (_ & _ & me & [H|H]); congruence|].
  intros l' w' es' N E'. destruct (forgotten_run l' w 2 w' es' F N E') as (_ & _ & me & [H|H]); congruence.
Qed.
Print Assumptions C54_second_joiner_refuted.
(** Or both join the same thread, which is undefined. *)
Theorem C54_join_twice_refuted : exists l w es a, run (initial true 0) l = Some (w, es) /\ step w a = Undefined.
Proof.
  pose (l := [Start 7 true (Some 100); WorkerRun; WorkerCall; JoinBegin 1 50 false; JoinBegin 2 51 false; WorkerEnd Return 33; WorkerLeave; WorkerDie; JoinStep 1; JoinStep 2; JoinStep 1; JoinStep 2; JoinStep 1]).
  destruct (run (initial true 0) l) as [[w es]|] eqn:E; [|vm_compute in E; discriminate]. exists l, w, es, (JoinStep 2). split; [exact E|]. vm_compute in E. injection E as <- _. reflexivity.
Qed.
Print Assumptions C54_join_twice_refuted.
(** The documentation says that notifications are counted up to the largest number and not
    beyond; the number is one of a signed type, and to count beyond it is undefined. *)
Theorem C54_count_refuted : forall n, Z.of_nat n = 2147483647 ->
  exists w es, run (initial false 0) (Start 7 true (Some 100) :: repeat Notify n) = Some (w, es) /\ step w Notify = Undefined.
Proof.
  intros n Q. pose (w0 := World STARTED 7 NOVALUE 0 100 false (Some (Worker 100 Created)) (fun j => woken Out)).
  destruct (many_notifications n w0) as (w & R & St & No & Co); [reflexivity|reflexivity|cbn; lia|cbn [w0 notifications]; rewrite Q; lia|]. rewrite Q in Co. cbn [w0 notifications] in Co. clear Q.
  exists w. eexists. split; [cbn [run step]|].
  - change (start (initial false 0) 7 true (Some 100)) with (Does w0 (Started 7 100)). cbv iota. rewrite R. cbn [bind]. reflexivity.
  - cbn [step]. unfold do_notify, ck_s32. rewrite St, Co. reflexivity.
Qed.
Print Assumptions C54_count_refuted.
Example C54_count_example : exists n, Z.of_nat n = 2147483647.
Proof. exists (Z.to_nat 2147483647). apply Z2Nat.id. lia. Qed.
(** A thread that was given the handle of a joined one cannot have its value. *)
Theorem C54_handle_refuted : exists l w es me, run (initial true 0) l = Some (w, es) /\ In (JoinDone 33) es /\ current w = None /\
  option_map snd (run w [JoinBegin 2 me false; JoinStep 2; JoinStep 2]) = Some [Joins 2 me false; Silent; JoinReturns 2 ERROR None].
Proof.
  pose (l := [Start 7 true (Some 100); WorkerRun; WorkerCall; JoinBegin 1 50 false; WorkerEnd Return 33; WorkerLeave; WorkerDie; JoinStep 1; JoinStep 1; JoinStep 1; JoinStep 1; JoinStep 1]).
  destruct (run (initial true 0) l) as [[w es]|] eqn:E; [|vm_compute in E; discriminate]. exists l, w, es, 100. split; [exact E|]. vm_compute in E. injection E as <- <-. split; [cbn; tauto|]. split; reflexivity.
Qed.
Print Assumptions C54_handle_refuted.
(** A join with a deadline has none once the thread is leaving: the thread may be in the
    cleanup handlers of its function for as long as it likes. *)
Theorem C54_deadline_refuted : exists l w es, run (initial true 0) l = Some (w, es) /\ In (Joins 1 50 true) es /\ current w = Some (Worker 100 (Again 33)) /\
  callers w 1 <> Out /\ step w (Timeout 1) = Disabled /\ step w (JoinStep 1) = Disabled.
Proof.
  pose (l := [Start 7 true (Some 100); WorkerRun; WorkerCall; JoinBegin 1 50 true; WorkerEnd Exit 33; WorkerLeave; JoinStep 1; JoinStep 1]).
  destruct (run (initial true 0) l) as [[w es]|] eqn:E; [|vm_compute in E; discriminate]. exists l, w, es. split; [exact E|]. vm_compute in E. injection E as <- <-. split; [cbn; tauto|]. split; [reflexivity|]. split; [discriminate|]. split; reflexivity.
Qed.
Print Assumptions C54_deadline_refuted.
