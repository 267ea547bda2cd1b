(** Properties C20, C21 and C22. *)

From Coq Require Import ZArith List Bool Lia.
From Verif Require Import CInt CUtil ReaderwriterModel ReaderwriterSpec ReaderwriterProofs ReaderwriterProofs2 ReaderwriterProofs3 ReaderwriterProofs4 ReaderwriterProofs5.
Import ListNotations.
Local Open Scope Z_scope.

(** * C20: exclusion *)

(** In every execution, whatever the threads, the time outs, the spurious wake ups, the
    errors and the priorities: at every moment no thread has the lock for writing, or
    exactly one has and no thread has it for reading; and so it is if those are counted
    too to which the lock has been given while they still wait. *)
Theorem C20_exclusion : forall tr s, run tr s ->
  (writers tr = [] \/ exists t, writers tr = [t] /\ readers tr = []) /\
  (forall t, In (t, WRITER) (granted tr) -> readers tr = [] /\ writers tr = [] /\ granted tr = [(t, WRITER)]) /\
  (forall t, In (t, READER) (granted tr) -> writers tr = []).
Proof.
  intros tr s R. apply run_inv in R as V. pose proof (V_reading _ _ V) as VR. pose proof (V_writing _ _ V) as VW. pose proof (V_excl _ _ V) as VX. pose proof (length_counts _ _ V) as LC.
  pose proof (count_nonneg READER (granted tr)) as C1. pose proof (count_nonneg WRITER (granted tr)) as C2. split; [|split].
  - destruct (writers tr) as [|t [|u l]] eqn:E; [auto| |cbn [length] in VW; lia]. right. exists t. split; [reflexivity|]. apply len_zero. cbn [length] in VW. lia.
  - intros t I. apply count_in in I as C. assert (RE : readers tr = []) by (apply len_zero; lia). assert (WE : writers tr = []) by (apply len_zero; lia). split; [exact RE|]. split; [exact WE|].
    assert (L : length (granted tr) = 1%nat) by lia. destruct (granted tr) as [|x [|y l]]; cbn in L; try lia. destruct I as [->|[]]. reflexivity.
  - intros t I. apply count_in in I as C. apply len_zero. lia.
Qed.
Print Assumptions C20_exclusion.

(** Nothing is undefined and no contract is violated, whether or not the audits for
    debugging are on: whatever an application may do next has an effect. The counts of
    the lock are those of the threads that have it or to which it has been given. *)
Theorem C20_defined : forall tr s a, run tr s -> permitted tr s a -> exists s' es, step s a = Some (s', es) /\ run (tr ++ es) s'.
Proof.
  intros tr s a R P. destruct (step_ok tr s a (run_inv _ _ R) P) as (s' & es & E & _). exists s', es. split; [exact E|].
  destruct R as (l & X). exists (l ++ [a]). exact (X_step _ _ _ _ _ _ _ _ X P E).
Qed.
Print Assumptions C20_defined.

(** A call to begin that fails leaves its caller with nothing: not waiting, not in the
    queue, not given the lock; and the lock is what it was for all the others. *)
Theorem C20_failure : forall tr s a s' es t r v, run tr s -> permitted tr s a -> step s a = Some (s', es) -> In (Begun t r v) es -> v <> 0 ->
  ~ In t (map fst (pending (tr ++ es))) /\ ~ In t (map fst (granted (tr ++ es))) /\ waits s' t = None /\ ~ In t (queue s') /\
  readers (tr ++ es) = readers tr /\ writers (tr ++ es) = writers tr /\ granted (tr ++ es) = granted tr /\
  pending (tr ++ es) = without t (pending tr) /\ reading s' = reading s /\ writing s' = writing s.
Proof.
  intros tr s a s' es t r v R P E I NZ. pose proof (run_inv _ _ R) as V. destruct (step_ok tr s a V P) as (s2 & es2 & E2 & V2 & A). rewrite E in E2. injection E2 as <- <-.
  exact (failure tr s a s' es t r v V V2 P A I NZ).
Qed.
Print Assumptions C20_failure.

(** A call succeeds only if the lock was free for its role and nobody waited, or if the
    lock had been given to it; and calls to begin return nothing but zero or less. *)
Theorem C20_success : forall tr s pre t r v suf, run tr s -> tr = pre ++ Begun t r v :: suf ->
  (v = 0 /\ (pending pre = [] \/ In (t, r) (granted pre))) \/ v <> 0.
Proof.
  intros tr s pre t r v suf R E. pose proof (event_ok tr s pre _ suf R E) as H. destruct v; [left; split; [reflexivity|exact H]|right; discriminate|right; discriminate].
Qed.
Print Assumptions C20_success.

(** Three readers and two writers, one of which gives up. *)
Definition story : list act :=
  [Begin 1 READER INFINITY false true; Begin 2 READER POLL false true; Begin 3 WRITER INFINITY false true; Begin 4 READER (TICKS true) false true;
   Debug true; Begin 5 WRITER (TICKS true) false true; Begin 6 WRITER POLL true true; End 1 READER; Wake 3 0; End 2 READER; Wake 5 110; Wake 3 0;
   End 3 WRITER; Wake 4 0; Maximum; End 4 READER].
Example C20_applies : exists tr s, run tr s /\
  tr = [Begun 1 READER 0; Begun 2 READER 0; Waits 3 WRITER false; Waits 4 READER false; Debugged 0; Waits 5 WRITER false; Begun 6 WRITER (-1);
        Ended 1 READER 0; Grants 3 WRITER; Ended 2 READER 0; Begun 5 WRITER (-1); Begun 3 WRITER 0; Grants 4 READER; Ended 3 WRITER 0; Begun 4 READER 0; Maximal 3; Ended 4 READER 0] /\
  permitted tr s (Begin 1 WRITER INFINITY true true).
Proof.
  destruct (play [] init story) as [(tr, s)|] eqn:E; [|vm_compute in E; discriminate]. exists tr, s. pose proof (play_run _ _ _ E) as R. split; [exact R|].
  assert (T : option_map fst (play [] init story) = Some tr) by (rewrite E; reflexivity). vm_compute in T. injection T as <-. split; [reflexivity|].
  cbn [permitted]. split; [auto|]. split; [|vm_compute; reflexivity].
  apply (play_get (fun p => waits (snd p) 1) _ _ _ _ E). vm_compute. reflexivity.
Qed.

(** Enabling or disabling debugging returns whether it was enabled, which is what was last
    asked for, whatever else happened since. *)
Theorem C20_debug : forall l tr s v, exec [] init l tr s -> exists s', step s (Debug v) = Some (s', [Debugged (if last_debug l then 1 else 0)]).
Proof. intros l tr s v X. rewrite <- (exec_debugging l tr s X). eexists. reflexivity. Qed.
Print Assumptions C20_debug.
Example C20_debug_applies : exists tr s, exec [] init [Debug true; Begin 1 READER POLL false true] tr s /\ tr = [Debugged 0; Begun 1 READER 0] /\
  last_debug [Debug true; Begin 1 READER POLL false true] = true.
Proof.
  destruct (play [] init [Debug true; Begin 1 READER POLL false true]) as [(tr, s)|] eqn:E; [|vm_compute in E; discriminate]. exists tr, s. split; [exact (play_exec _ _ _ _ _ E)|].
  assert (T : option_map fst (play [] init [Debug true; Begin 1 READER POLL false true]) = Some tr) by (rewrite E; reflexivity). vm_compute in T. injection T as <-. split; reflexivity.
Qed.

(** * C21: hand over *)

(** No execution reaches a state in which threads wait and the lock is free: some thread
    has it, or it has been given to some thread. Every thread it has been given to has
    had its condition variable broadcast since it last waited for it, and whenever and
    for whatever reason such a thread wakes up, its call to begin succeeds. *)
Theorem C21_handover : forall tr s, run tr s ->
  (pending tr <> [] -> readers tr <> [] \/ writers tr <> [] \/ granted tr <> []) /\
  (forall t r, In (t, r) (granted tr) -> waits s t = Some (r, true) /\ forall rc, exists s', step s (Wake t rc) = Some (s', [Begun t r 0])).
Proof.
  intros tr s R. pose proof (run_inv _ _ R) as V. split.
  - intros NE. pose proof (holders_pos _ _ V NE) as H. unfold holders in H. destruct (readers tr); [|left; discriminate]. destruct (writers tr); [|right; left; discriminate].
    destruct (granted tr); [cbn in H; lia|right; right; discriminate].
  - intros t r I. destruct (V_grant _ _ V t r I) as (_ & _ & W). split; [exact W|]. intros rc.
    destruct (wake_ok tr s t rc V) as (s' & es & E & _ & _ & S); [cbn; congruence|]. exists s'. cbn [step]. rewrite E.
    destruct (nodup_grant _ _ V) as (NG & DJ). assert (NP : forall q, ~ In (t, q) (pending tr)) by (intros q X; apply (DJ t); apply in_map_iff; [exists (t, q)|exists (t, r)]; auto).
    destruct S as (q & [(I2 & ->)|[(X & _)|(v & _ & X & _)]]); [|destruct (NP _ X)|destruct (NP _ X)].
    destruct (V_grant _ _ V t q I2) as (_ & _ & W2). congruence.
Qed.
Print Assumptions C21_handover.

(** When the last thread ends, the lock is given at once to the first that waits, if any:
    if that is a writer, to it alone; if that is a reader, to all the readers in front of
    the first writer. And until the last thread ends, to nobody. *)
Theorem C21_release : forall tr s t r, run tr s -> permitted tr s (End t r) -> exists s',
  step s (End t r) = Some (s',
    (if (length (readers tr) + length (writers tr) + length (granted tr) =? 1)%nat then map (fun p => Grants (fst p) (snd p)) (next_batch (pending tr)) else [])
    ++ [Ended t r 0]).
Proof. intros tr s t r R P. destruct (end_ok tr s t r (run_inv _ _ R) P) as (s' & E & _). exists s'. exact E. Qed.
Print Assumptions C21_release.

(** Nobody waits forever if those that have the lock end: as long as no thread begins
    with priority, a thread that waits has been given the lock, or has given up, after
    as many calls to end as there are threads that have the lock or wait before it. *)
Theorem C21_progress : forall tr0 s0 t r A B l tr s, run tr0 s0 -> pending tr0 = A ++ (t, r) :: B -> exec tr0 s0 l tr s -> Forall no_priority l ->
  (length (readers tr0) + length (writers tr0) + length (granted tr0) + length A <= length (filter is_end l))%nat ->
  exists es, tr = tr0 ++ es /\ ((exists q, In (Grants t q) es) \/ (exists q v, In (Begun t q v) es)).
Proof.
  intros tr0 s0 t r A B l tr s R PE X NP L. pose proof (run_inv _ _ R) as V. destruct (progress tr0 s0 t r A B V PE l tr s X NP) as (es & -> & H). exists es. split; [reflexivity|].
  destruct (silent_dec t es) as [S|S]; [exfalso|exact S]. destruct (H S) as (A' & B' & P' & L'). unfold ends in L'. fold (holders tr0) in L.
  assert (NE : pending (tr0 ++ es) <> []) by (rewrite P'; intros Y; apply app_eq_nil in Y as (_ & Y); discriminate).
  pose proof (holders_pos _ _ (exec_inv _ _ V _ _ _ X) NE). lia.
Qed.
Print Assumptions C21_progress.

Example C21_applies : exists tr0 s0 l tr s, run tr0 s0 /\ pending tr0 = [(3, WRITER)] ++ (4, READER) :: [(5, WRITER)] /\ readers tr0 = [2] /\ exec tr0 s0 l tr s /\
  Forall no_priority l /\ length (filter is_end l) = 2%nat /\ In (Grants 4 READER) tr.
Proof.
  destruct (play [] init (firstn 8 story)) as [(tr0, s0)|] eqn:E0; [|vm_compute in E0; discriminate].
  assert (T0 : option_map fst (play [] init (firstn 8 story)) = Some tr0) by (rewrite E0; reflexivity).
  set (l := firstn 5 (skipn 8 story)). destruct (play tr0 s0 l) as [(tr, s)|] eqn:E.
  - exists tr0, s0, l, tr, s. split; [exact (play_run _ _ _ E0)|]. assert (T : option_map fst (match play [] init (firstn 8 story) with Some (a, b) => play a b l | None => None end) = Some tr) by (rewrite E0, E; reflexivity).
    pose proof (play_exec _ _ _ _ _ E) as X. vm_compute in T0. injection T0 as <-. split; [reflexivity|]. split; [reflexivity|]. split; [exact X|]. split; [repeat constructor|]. split; [reflexivity|].
    vm_compute in T. injection T as <-. cbn. tauto.
  - exfalso. assert (T : match (match play [] init (firstn 8 story) with Some (a, b) => play a b l | None => None end) with Some _ => true | None => false end = false) by (rewrite E0, E; reflexivity).
    vm_compute in T. discriminate.
Qed.

(** It is not so that readers never wait while only readers have the lock: when a writer
    that waits gives up, the readers behind it are not woken up, and wait until all the
    readers that have the lock have ended. *)
Theorem C21_readers_refuted : ~ (forall tr s, run tr s -> writers tr = [] -> granted tr = [] -> readers tr <> [] -> forall t, hd_error (pending tr) <> Some (t, READER)).
Proof.
  intros H. destruct (play [] init [Begin 1 READER INFINITY false true; Begin 2 WRITER (TICKS true) false true; Begin 3 READER INFINITY false true; Wake 2 110]) as [(tr, s)|] eqn:E; [|vm_compute in E; discriminate].
  pose proof (play_run _ _ _ E) as R. assert (T := f_equal (option_map fst) E). vm_compute in T. injection T as <-. apply (H _ s R) with (t := 3); vm_compute; congruence.
Qed.
Print Assumptions C21_readers_refuted.

(** Cancelling a thread that waits is not safe, though there are handlers for it: one
    that is in the queue never finishes its handler, and holds the mutex forever; *)
Theorem C21_cancel_refuted : ~ (forall tr s t, run tr s -> waits s t <> None -> cancel s t <> None).
Proof.
  intros H. destruct (play [] init [Begin 1 WRITER INFINITY false true; Begin 2 WRITER INFINITY false true]) as [(tr, s)|] eqn:E; [|vm_compute in E; discriminate].
  pose proof (play_run _ _ _ E) as R. apply (H tr s 2 R).
  - pose proof (play_get (fun p => waits (snd p) 2) _ _ _ (Some (WRITER, false)) E ltac:(vm_compute; reflexivity)) as W. cbn [snd] in W. congruence.
  - unfold cancel. assert (Q : queue s = [2]) by (apply (play_get (fun p => queue (snd p)) _ _ _ _ E); vm_compute; reflexivity). rewrite Q. reflexivity.
Qed.
Print Assumptions C21_cancel_refuted.
(** and one to which the lock has been given leaves it taken, with no thread to end it. *)
Theorem C21_cancel_granted_refuted : ~ (forall tr s t s', run tr s -> cancel s t = Some s' -> readers tr = [] -> writers tr = [] -> (forall u, waits s' u = None) -> reading s' = 0 /\ writing s' = 0).
Proof.
  intros H. destruct (play [] init [Begin 1 WRITER INFINITY false true; Begin 2 WRITER INFINITY false true; End 1 WRITER]) as [(tr, s)|] eqn:E; [|vm_compute in E; discriminate].
  pose proof (play_run _ _ _ E) as R. assert (T := f_equal (option_map fst) E). vm_compute in T. injection T as <-.
  assert (Q : queue s = []) by (apply (play_get (fun p => queue (snd p)) _ _ _ _ E); vm_compute; reflexivity).
  assert (W : writing s = 1) by (apply (play_get (fun p => writing (snd p)) _ _ _ _ E); vm_compute; reflexivity).
  assert (F : forall u, u <> 2 -> waits s u = None).
  { intros u N. destruct (waits s u) as [(r, w)|] eqn:X; [exfalso|reflexivity]. destruct (V_waits _ _ (run_inv _ _ R) _ _ _ X) as [Y|Y]; cbn in Y; [exact Y|]. destruct Y as [Y|[]]. congruence. }
  destruct (H _ s 2 (with_waits (set (waits s) 2 None) s) R) as (_ & Z0); [unfold cancel; rewrite Q; reflexivity|reflexivity|reflexivity| |cbn in Z0; congruence].
  intros u. cbn. unfold set. destruct (Z.eqb_spec u 2) as [->|N]; [reflexivity|apply F, N].
Qed.
Print Assumptions C21_cancel_granted_refuted.

(** * C22: order *)

(** The lock is only ever given to the thread that is first in the queue at that moment. *)
Theorem C22_first : forall tr s pre t r suf, run tr s -> tr = pre ++ Grants t r :: suf -> exists rest, pending pre = (t, r) :: rest.
Proof. intros tr s pre t r suf R E. exact (event_ok tr s pre _ suf R E). Qed.
Print Assumptions C22_first.

(** If no thread begins with priority, threads are given the lock in the order in which
    they began to wait: if a thread began to wait before another, and the lock is given
    to the other, then before that it was given to the first, or its call returned (as it
    had timed out, or failed). *)
Theorem C22_fifo : forall tr s a t1 r1 b t2 r2 c d, run tr s -> (forall t r, ~ In (Waits t r true) tr) ->
  tr = a ++ Waits t1 r1 false :: b ++ Waits t2 r2 false :: c ++ Grants t2 r2 :: d -> t1 <> t2 ->
  (exists r, In (Grants t1 r) (b ++ c)) \/ (exists r v, In (Begun t1 r v) (b ++ c)).
Proof. exact in_order. Qed.
Print Assumptions C22_fifo.

(** And a thread that begins does not overtake those that wait: it gets the lock without
    waiting only if nobody waits. *)
Theorem C22_no_overtaking : forall tr s t r to priority node s' es, run tr s -> permitted tr s (Begin t r to priority node) ->
  step s (Begin t r to priority node) = Some (s', es) -> In (Begun t r 0) es -> pending tr = [].
Proof.
  intros tr s t r to pr node s' es R P E I. destruct (step_ok tr s _ (run_inv _ _ R) P) as (s2 & es2 & E2 & _ & A). rewrite E in E2. injection E2 as <- <-.
  destruct A as (_ & [(_ & _ & PN)|[(v & NZ & -> & _)|[(-> & _)|(v & NZ & -> & _)]]]); [exact PN| | |].
  - destruct I as [I|[]]. congruence.
  - destruct I as [I|[]]. discriminate.
  - destruct I as [I|[I|[]]]; [discriminate|congruence].
Qed.
Print Assumptions C22_no_overtaking.

(** Readers next to each other in the queue are given the lock together: when it is given
    to one of them, then in the same step to all up to the first writer. *)
Theorem C22_together : forall tr s t r s' es u, run tr s -> permitted tr s (End t r) -> step s (End t r) = Some (s', es) -> In (Grants u READER) es ->
  exists readers rest, pending tr = readers ++ rest /\ Forall (fun p => snd p = READER) readers /\ (rest = [] \/ exists w rest', rest = (w, WRITER) :: rest') /\
    es = map (fun p => Grants (fst p) READER) readers ++ [Ended t r 0] /\ pending (tr ++ es) = rest.
Proof.
  intros tr s t r s' es u R P E I. pose proof (run_inv _ _ R) as V. destruct (end_ok tr s t r V P) as (s2 & E2 & V2). rewrite E in E2. injection E2 as <- ES.
  exact (together tr s t r es u V ES I).
Qed.
Print Assumptions C22_together.

(** Asking for the maximum yields the largest number of threads that have waited at the
    same time since it was last asked for. *)
Theorem C22_maximum : forall tr s pre v suf, run tr s -> tr = pre ++ Maximal v :: suf -> v = peak pre.
Proof. intros tr s pre v suf R E. exact (event_ok tr s pre _ suf R E). Qed.
Print Assumptions C22_maximum.

(** A thread that waits with priority is served before all others, unless another begins
    with priority after it: the next to be given the lock is that thread, unless it gives
    up. *)
Theorem C22_priority : forall tr s a t r c u q d, run tr s -> tr = a ++ Waits t r true :: c ++ Grants u q :: d ->
  (forall x y, ~ In (Waits x y true) c) -> (forall x y, ~ In (Grants x y) c) -> (forall y v, ~ In (Begun t y v) c) -> u = t /\ q = r.
Proof. exact priority_first. Qed.
Print Assumptions C22_priority.
Example C22_priority_applies : exists tr s, run tr s /\ tr = [Begun 1 WRITER 0; Waits 2 WRITER false] ++ Waits 3 WRITER true :: [Waits 4 READER false] ++ Grants 3 WRITER :: [Ended 1 WRITER 0].
Proof.
  destruct (play [] init [Begin 1 WRITER INFINITY false true; Begin 2 WRITER INFINITY false true; Begin 3 WRITER INFINITY true true; Begin 4 READER INFINITY false true; End 1 WRITER])
    as [(tr, s)|] eqn:E; [|vm_compute in E; discriminate].
  exists tr, s. split; [exact (play_run _ _ _ E)|]. assert (T := f_equal (option_map fst) E). vm_compute in T. injection T as <-. reflexivity.
Qed.
(** So among themselves they are not served in the order in which they began. *)
Theorem C22_priority_order_refuted : ~ (forall tr s a t1 r1 b t2 r2 c d, run tr s ->
  tr = a ++ Waits t1 r1 true :: b ++ Waits t2 r2 true :: c ++ Grants t2 r2 :: d -> t1 <> t2 ->
  (exists r, In (Grants t1 r) (b ++ c)) \/ (exists r v, In (Begun t1 r v) (b ++ c))).
Proof.
  intros H. destruct (play [] init [Begin 1 WRITER INFINITY false true; Begin 2 WRITER INFINITY true true; Begin 3 WRITER INFINITY true true; End 1 WRITER]) as [(tr, s)|] eqn:E; [|vm_compute in E; discriminate].
  pose proof (play_run _ _ _ E) as R. assert (T := f_equal (option_map fst) E). vm_compute in T. injection T as <-.
  destruct (H _ s [Begun 1 WRITER 0] 2 WRITER [] 3 WRITER [] [Ended 1 WRITER 0] R) as [(r & I)|(r & v & I)]; [reflexivity|lia|destruct I|destruct I].
Qed.
Print Assumptions C22_priority_order_refuted.

(** A writer and two readers wait behind a writer. *)
Example C22_applies : exists tr s, run tr s /\
  tr = [Begun 1 WRITER 0] ++ Waits 2 WRITER false :: [] ++ Waits 3 READER false :: [Waits 4 READER false; Grants 2 WRITER; Ended 1 WRITER 0; Begun 2 WRITER 0] ++ Grants 3 READER :: [Grants 4 READER; Ended 2 WRITER 0].
Proof.
  destruct (play [] init [Begin 1 WRITER INFINITY false true; Begin 2 WRITER INFINITY false true; Begin 3 READER INFINITY false true; Begin 4 READER INFINITY false true; End 1 WRITER; Wake 2 0; End 2 WRITER])
    as [(tr, s)|] eqn:E; [|vm_compute in E; discriminate].
  exists tr, s. split; [exact (play_run _ _ _ E)|]. assert (T := f_equal (option_map fst) E). vm_compute in T. injection T as <-. reflexivity.
Qed.
