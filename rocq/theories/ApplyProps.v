(** Property theorems for shared values in sections. *)

From Coq Require Import ZArith List Bool Arith Lia.
From Verif Require Import ApplyModel ApplySpec ApplyProofs.
Import ListNotations.

(** C87: whatever the schedule, and whoever is cancelled, the value is what it would be had
    the functions been applied one after the other; each thread has had those of its jobs
    that have a result applied, in its own order, and has the results of that; and one more
    at most, if it is still in the section, or was cancelled in it. *)
Theorem C87_atomic : forall V R k (v : V) (work : nat -> list (job V R)) schedule, let s := run k schedule (init v work) in
  exists history, shared s = fst (serially history v) /\
  forall t, let th := threads s t in
    exists p q, of_thread t history = applied (work t) (results th) ++ p /\ of_thread t (snd (serially history v)) = given (results th) ++ q /\ length p = length q /\
      (p = [] \/ (at_ th <> Out /\ exists j, nth_error (work t) (length (results th)) = Some j /\ p = [fn j])).
Proof.
  intros V R k v work schedule s. destruct (inv_run k work v schedule _ _ (inv_init k v work)) as (h & IV). fold s in IV. destruct IV as [SH _ _ _ TH]. exists h. split; [exact SH|].
  intros t th. destruct (TH t) as (A & B & C & D & _ & p & q & P & Q & W). fold th in A, B, C, D, P, Q, W. exists p, q. split; [exact P|]. split; [exact Q|].
  destruct (at_ th) as [| |x|r] eqn:AT; try (destruct W as (-> & ->); split; [reflexivity|left; reflexivity]). destruct W as (j & rest & J & -> & ->). split; [reflexivity|]. right. split; [discriminate|]. exists j. split; [|reflexivity].
  rewrite J in A. exact (proj2 (proj2 (skipn_next _ _ _ _ _ (eq_sym A)))).
Qed.
Print Assumptions C87_atomic.

(** C87: at most one thread is in the section at any time. *)
Theorem C87_exclusion : forall V R k (v : V) (work : nat -> list (job V R)) schedule t u, let s := run k schedule (init v work) in
  inside s t -> inside s u -> t = u.
Proof.
  intros V R k v work schedule t u s (A1 & A2) (B1 & B2). destruct (inv_run k work v schedule _ _ (inv_init k v work)) as (h & IV). fold s in IV. apply (inv_one _ _ _ _ _ IV); split; tauto.
Qed.
Print Assumptions C87_exclusion.

(** C87: only a try can fail. *)
Theorem C87_begin : forall V R k (v : V) (work : nat -> list (job V R)) schedule t i j, let s := run k schedule (init v work) in
  nth_error (work t) i = Some j -> nth_error (results (threads s t)) i = Some None -> try j = true.
Proof.
  intros V R k v work schedule t i j s J N. destruct (inv_run k work v schedule _ _ (inv_init k v work)) as (h & IV). fold s in IV. destruct (inv_threads _ _ _ _ _ IV t) as (_ & _ & _ & D & _). destruct (D i N) as (j' & E & T). congruence.
Qed.
Print Assumptions C87_begin.

(** C87: no deadlock. A thread that is alive and has a job to do can be brought to do it by
    letting it, and at most one other, run: with a mutex even after threads have been
    cancelled anywhere, with a spin lock if none has. *)
Theorem C87_progress : forall V R k (v : V) (work : nat -> list (job V R)) schedule t, let s := run k schedule (init v work) in
  k = Mutex \/ Forall spared schedule -> alive (threads s t) = true -> length (results (threads s t)) < length (work t) ->
  exists more r, Forall spared more /\ results (threads (run k more s) t) = results (threads s t) ++ [Some r].
Proof.
  intros V R k v work schedule t s K AL LT. destruct (inv_run k work v schedule _ _ (inv_init k v work)) as (h & IV). fold s in IV.
  assert (SP : forall n u, Forall spared (repeat (Run u) n)) by (intros n u; apply Forall_forall; intros x H; apply repeat_spec in H; subst x; exact I).
  destruct (inv_threads _ _ _ _ _ IV t) as (A & B & C & _). assert (JN : jobs (threads s t) <> []). { rewrite A. intros E. apply (f_equal (@length _)) in E. rewrite skipn_length in E. cbn in E. lia. }
  assert (OUT : at_ (threads s t) <> Out -> exists more r, Forall spared more /\ results (threads (run k more s) t) = results (threads s t) ++ [Some r]).
  { intros AT. destruct (way_out k s t AL AT JN) as (n & _ & _ & _ & r & E). exists (repeat (Run t) n), r. split; [apply SP|exact E]. }
  destruct (at_ (threads s t)) eqn:AT; [clear OUT|apply OUT; discriminate|apply OUT; discriminate|apply OUT; discriminate].
  destruct (jobs (threads s t)) as [|j rest] eqn:J; [congruence|]. destruct (lock s) eqn:L.
  - destruct (inv_owner _ _ _ _ _ IV L) as (o & O1 & O2). assert (OT : t <> o) by congruence.
    assert (AO : alive (threads s o) = true). { destruct O2 as [->|O2]; [|exact O2]. destruct K as [K|K]; [discriminate K|]. apply spared_alive; [exact K|reflexivity]. }
    destruct (inv_threads _ _ _ _ _ IV o) as (_ & _ & CO & _). destruct (way_out k s o AO O1 (CO O1)) as (n & U & OTH & _). specialize (OTH t OT).
    destruct (way_in k (run k (repeat (Run o) n) s) t j rest U) as (m & r & E); try (rewrite OTH; assumption). rewrite OTH in E. exists (repeat (Run o) n ++ repeat (Run t) m), r. split; [apply Forall_app; split; apply SP|]. rewrite run_app. exact E.
  - destruct (way_in k s t j rest L AL AT J) as (m & r & E). exists (repeat (Run t) m), r. split; [apply SP|exact E].
Qed.
Print Assumptions C87_progress.

(** C87: a thread that is cancelled in a serialized section leaves it locked for ever: no
    thread does anything in it again. *)
Theorem C87_spin_refuted : forall V R (v : V) (work : nat -> list (job V R)) schedule, work 0 <> [] ->
  let s := run Spin (Run 0 :: Kill 0 :: schedule) (init v work) in shared s = v /\ forall t, given (results (threads s t)) = [] /\ ~ inside s t.
Proof.
  intros V R v work schedule N s. assert (ST : stuck v s).
  { unfold s. cbn [run]. apply stuck_run. cbn [step]. unfold advance, init. cbn [threads alive jobs negb lock at_]. destruct (work 0) as [|j rest] eqn:W; [congruence|]. unfold cancel. cbn [threads]. rewrite upd_same. cbn [alive negb at_ lock shared].
    split; [reflexivity|]. split; [reflexivity|]. intros t. cbn [threads]. destruct (Nat.eq_dec t 0) as [->|NT]; [rewrite upd_same; cbn; split; [discriminate|reflexivity]|rewrite !upd_other by exact NT; cbn; split; reflexivity]. }
  destruct ST as (_ & S & T). split; [exact S|]. intros t. split; [apply T|]. intros (I1 & I2). apply I2. apply T, I1.
Qed.
Print Assumptions C87_spin_refuted.

(** C87: counting, as for the tests and the errors of a unit test: no number is given twice,
    to one thread or to two; every number is one of those up to the count, and every one of
    those has been given, or is about to be, or was when its thread was cancelled. *)
Theorem C87_counter : forall k (work : nat -> list (job Z Z)) schedule, (forall t, Forall (eq count) (work t)) ->
  let s := run k schedule (init 0%Z work) in
  (forall t i u j n, nth_error (results (threads s t)) i = Some (Some n) -> nth_error (results (threads s u)) j = Some (Some n) -> t = u /\ i = j) /\
  (forall t n, List.In (Some n) (results (threads s t)) -> (1 <= n <= shared s)%Z) /\
  (forall n, (1 <= n <= shared s)%Z -> exists t, List.In (Some n) (results (threads s t)) \/ at_ (threads s t) = Put n).
Proof.
  intros k work schedule CO s. destruct (inv_run k work 0%Z schedule _ _ (inv_init k 0%Z work)) as (h & IV). fold s in IV. destruct IV as [SH _ _ _ TH].
  assert (FC : Forall (fun x => snd x = fn count) h).
  { apply Forall_forall. intros (t, f) I. cbn [snd]. pose proof (of_thread_in _ h t f I) as I'. destruct (TH t) as (A & _ & _ & _ & _ & p & q & P & _ & W). rewrite P in I'. specialize (CO t). rewrite Forall_forall in CO.
    apply in_app_or in I'. destruct I' as [I'|I'].
    - apply applied_in in I'. destruct I' as (j & J & ->). rewrite <- (CO j J). reflexivity.
    - destruct (at_ (threads s t)); try (destruct W as (-> & _); destruct I'). destruct W as (j & rest & JE & -> & _). destruct I' as [<-|[]]. rewrite JE in A. destruct (skipn_next _ _ _ _ _ (eq_sym A)) as (_ & _ & NE). rewrite <- (CO j (nth_error_In _ _ NE)). reflexivity. }
  destruct (serially_count h 0%Z FC) as (LE & NU). set (rs := snd (serially h 0%Z)) in *.
  assert (LR : length rs = length h). { unfold rs. clear. generalize 0%Z. induction h as [|(t, f) h IH]; intros z; cbn [serially]; [reflexivity|]. destruct (f z) as (z', r). specialize (IH z'). destruct (serially h z') as (w, l). cbn [snd length] in *. congruence. }
  assert (GE : forall t i n, nth_error (results (threads s t)) i = Some (Some n) -> exists m, nth_error rs m = Some (t, n) /\ length (of_thread t (firstn m rs)) = length (given (firstn i (results (threads s t))))).
  { intros t i n H. apply given_nth in H. destruct (TH t) as (_ & _ & _ & _ & _ & p & q & _ & Q & _). fold rs in Q.
    assert (N : nth_error (of_thread t rs) (length (given (firstn i (results (threads s t))))) = Some n). { rewrite Q, nth_error_app1; [exact H|]. apply nth_error_Some. congruence. }
    destruct (of_thread_nth _ _ _ _ _ N) as (m & M1 & _ & M2). exists m. split; assumption. }
  split; [|split].
  - intros t i u j n H1 H2. destruct (GE _ _ _ H1) as (m1 & M1 & L1). destruct (GE _ _ _ H2) as (m2 & M2 & L2). pose proof (NU _ _ _ M1). pose proof (NU _ _ _ M2). assert (m1 = m2) by lia. subst m2. assert (t = u) by congruence. subst u. split; [reflexivity|].
    eapply given_mono; [exact H1|exact H2|congruence].
  - intros t n I. destruct (In_nth_error _ _ I) as (i & H). destruct (GE _ _ _ H) as (m & M & _). pose proof (NU _ _ _ M). assert (m < length rs)%nat by (apply nth_error_Some; congruence). lia.
  - intros n B. destruct (nth_error rs (Z.to_nat (n - 1))) as [(t, r)|] eqn:E.
    + pose proof (NU _ _ _ E) as RV. assert (RN : r = n) by lia. clear RV. subst r. exists t. pose proof (of_thread_in _ rs t n (nth_error_In _ _ E)) as I. destruct (TH t) as (_ & _ & _ & _ & _ & p & q & _ & Q & W). fold rs in Q. rewrite Q in I. apply in_app_or in I. destruct I as [I|I]; [left; apply given_in, I|right].
      destruct (at_ (threads s t)); try (destruct W as (_ & ->); destruct I). destruct W as (_ & _ & _ & _ & ->). destruct I as [<-|[]]. reflexivity.
    + apply nth_error_None in E. lia.
Qed.
Print Assumptions C87_counter.

(** Two threads count; the first is stopped after it has read, and the other has to wait;
    and the first is cancelled when it has written, so that its number is given to no one. *)
Example C87_example :
  let work := fun t => match t with 0 => [count; count] | 1 => [count; Job true (fn count)] | _ => [] end in
  let s := run Mutex [Run 0; Run 0; Run 1; Run 1; Run 0; Kill 0; Run 1; Run 1; Run 1; Run 1] (init 0%Z work) in
  shared s = 2%Z /\ results (threads s 0) = [] /\ at_ (threads s 0) = Put 1%Z /\ results (threads s 1) = [Some 2%Z] /\
  Forall (eq count) [count; count] /\ work 0 <> [] /\ inside (run Mutex [Run 0; Run 0; Run 1] (init 0%Z work)) 0 /\
  alive (threads s 1) = true /\ length (results (threads s 1)) < length (work 1) /\
  results (threads (run Mutex [Run 0; Run 1; Run 1; Run 1; Run 1] (init 0%Z (fun _ => [Job true (fn count)]))) 1) = [None].
Proof. cbv zeta. repeat split; try reflexivity; try discriminate; try (repeat constructor; fail). Qed.
