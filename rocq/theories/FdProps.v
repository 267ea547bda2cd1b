(** Properties C41 and C42. *)

From Coq Require Import ZArith List Bool Lia.
From Verif Require Import CInt CUtil FdModel FdSpec FdProofs.
Import ListNotations.
Local Open Scope Z_scope.

(** Whatever the system calls answer: a read returns the number n of octets transferred
    (or -1, with none transferred, exactly if the first call failed); n is at most the maximum;
    the buffer then starts with the first n octets of the stream and is otherwise
    unchanged, and exactly those octets have been consumed; n is below the minimum (and
    below the maximum) only at end of file or if a call failed; and no call follows one
    that reached the minimum. *)
Theorem C41_read : forall replies buffer stream min max r b p counts,
  0 <= min < 2 ^ 63 -> (max <= length buffer)%nat ->
  read_generic replies buffer stream min max = (r, b, p, counts) ->
  let n := sum counts in
  (n <= max)%nat /\ b = firstn n stream ++ skipn n buffer /\ p = skipn n stream /\ (n <= length stream)%nat /\
  Forall (fun c => 0 < c)%nat counts /\
  (r = Z.of_nat n \/ (r = -1 /\ n = O)) /\
  (r = -1 <-> (0 < max)%nat /\ exists e, replies O = Fail e) /\
  ((Z.of_nat n < min /\ (n < max)%nat) \/ (n = O /\ (0 < max)%nat) ->
     (r = Z.of_nat n /\ n = length stream) \/ exists e, replies (length counts) = Fail e) /\
  (forall before c after, counts = before ++ c :: after -> before <> [] -> Z.of_nat (sum before) < min).
Proof.
  intros replies buffer stream min max r b p counts Hm Hb E.
  pose proof (read_spec replies buffer stream min max Hm Hb) as P. rewrite E in P. unfold read_post in P. cbv zeta in *.
  change (0 + sum counts)%nat with (sum counts) in P. destruct P as (P1 & P2 & P3 & P4 & P5 & P6 & P7 & P8 & P9).
  split; [exact P1|]. split; [exact P2|]. split; [exact P3|]. split; [exact P4|]. split; [exact P5|].
  split; [exact P6|].
  split.
  { split.
    - intros Q. destruct (P9 Q) as (_ & e & X & _). split; [|exists e; exact X]. destruct max; [|lia]. cbn in E. congruence.
    - intros (M & e & X). pose proof (read_fail replies buffer stream min max e M X) as Y. rewrite E in Y. exact Y. }
  split; [exact P8|]. exact P7.
Qed.
Print Assumptions C41_read.

(** The same of a write, of what the descriptor accepts. *)
Theorem C41_write : forall replies buffer accepted min max r a counts,
  0 <= min < 2 ^ 63 -> (max <= length buffer)%nat ->
  write_generic replies buffer accepted min max = (r, a, counts) ->
  let n := sum counts in
  (n <= max)%nat /\ a = accepted ++ firstn n buffer /\
  Forall (fun c => 0 < c)%nat counts /\
  (r = Z.of_nat n \/ (r = -1 /\ n = O)) /\
  (r = -1 <-> (0 < max)%nat /\ exists e, replies O = Fail e) /\
  ((Z.of_nat n < min /\ (n < max)%nat) \/ (n = O /\ (0 < max)%nat) -> exists e, replies (length counts) = Fail e) /\
  (forall before c after, counts = before ++ c :: after -> before <> [] -> Z.of_nat (sum before) < min).
Proof.
  intros replies buffer accepted min max r a counts Hm Hb E.
  pose proof (write_loop_spec min max buffer accepted Hm Hb (S max) replies 0 max ltac:(lia) ltac:(lia) ltac:(left; reflexivity)) as P.
  change (write_loop (S max) replies min buffer (accepted ++ firstn 0 buffer) 0 max) with (write_generic replies buffer (accepted ++ firstn 0 buffer) min max) in P. rewrite firstn_O, app_nil_r, E in P. unfold write_post in P. cbv zeta in *.
  change (0 + sum counts)%nat with (sum counts) in P. destruct P as (P1 & P2 & P5 & P6 & P7 & P8 & P9).
  split; [exact P1|]. split; [exact P2|]. split; [exact P5|].
  split; [exact P6|].
  split.
  { split.
    - intros Q. destruct (P9 Q) as (_ & e & X & _). split; [|exists e; exact X]. destruct max; [|lia]. cbn in E. congruence.
    - intros (M & e & X). pose proof (write_fail replies buffer accepted min max e M X) as Y. rewrite E in Y. exact Y. }
  split; [exact P8|]. exact P7.
Qed.
Print Assumptions C41_write.

Example C41_example :
  read_generic (fun n => match n with O => Give 2 | S O => Give 9 | _ => Fail 5 end) [9; 9; 9; 9; 9; 9] [1; 2; 3; 4; 5; 6; 7] 4 5
    = (5, [1; 2; 3; 4; 5; 9], [6; 7], [2; 3]%nat) /\
  read_generic (fun n => match n with O => Give 2 | _ => Fail 5 end) [9; 9; 9; 9; 9; 9] [1; 2; 3; 4; 5; 6; 7] 4 5
    = (2, [1; 2; 9; 9; 9; 9], [3; 4; 5; 6; 7], [2]%nat) /\
  write_generic (fun n => Give 2) [1; 2; 3; 4; 5; 6] [0] 3 5 = (4, [0; 1; 2; 3; 4], [2; 2]%nat).
Proof. split; [vm_compute; reflexivity|]. split; vm_compute; reflexivity. Qed.

(** A descriptor map has a slot for a descriptor exactly if the descriptor is in its
    range, and different descriptors have different slots. *)
Theorem C41_map : forall count a b, (map_ref count a <> None <-> 0 <= a < count) /\
  (map_ref count a <> None -> map_ref count a = map_ref count b -> a = b).
Proof.
  intros count a b. unfold map_ref. split.
  - destruct (Z.leb_spec 0 a), (Z.ltb_spec a count); cbn; split; intros; try congruence; lia.
  - destruct ((0 <=? a) && (a <? count)); [|congruence]. destruct ((0 <=? b) && (b <? count)); congruence.
Qed.
Print Assumptions C41_map.
Example C41_map_example : map_ref 4 3 = Some 3 /\ map_ref 4 4 = None /\ map_ref 4 (-1) = None.
Proof. split; [reflexivity|]. split; reflexivity. Qed.

(** Whatever the interleaving of signals with the checks of the thread they are
    delivered to, and while at most INT_MAX signals have been handled: every handled
    signal has been returned by a check, or is in the counter, or is on its way out of
    the check in progress; so each is counted exactly once. *)
Theorem C42_accounting : forall t actions, Forall (of_thread t) actions ->
  let s := acts process_init actions in
  handled s <= MAXIMUM -> handled s = zsum (returned s) + signaled s + taken (threads s t).
Proof. intros t actions F s H. destruct (acts_ok t actions process_init (init_ok t) F) as (_ & _ & A & _). exact (A H). Qed.
Print Assumptions C42_accounting.

(** A check that starts after the signals have been handled, with none arriving
    meanwhile, returns them all, and leaves none. *)
Theorem C42_check_returns_all : forall t actions, Forall (of_thread t) actions ->
  let s := acts process_init actions in
  handled s <= MAXIMUM -> quiet (threads s t) -> mutex s = None ->
  let s' := acts s [Step t; Step t; Step t; Step t; Step t; Step t] in
  returned s' = (handled s - zsum (returned s)) :: returned s /\ signaled s' = 0 /\ quiet (threads s' t) /\ mutex s' = None.
Proof.
  intros t actions F s H (Q1 & Q2) M. pose proof (acts_ok t actions process_init (init_ok t) F) as (_ & _ & A & _ & _ & _ & _ & P). fold s in A, P. specialize (A H).
  assert (Pe : pending (threads s t) = false).
  { destruct (pending (threads s t)) eqn:E; [|reflexivity]. destruct (P eq_refl) as [X|X]; [rewrite Q2 in X; discriminate|congruence]. }
  unfold taken in A. rewrite Q2 in A. destruct (threads s t) as [p pe h] eqn:L. cbn [at_ handler pending] in *. subst p pe h.
  replace (handled s - zsum (returned s)) with (signaled s) by lia.
  destruct (check_run s t L M) as (R1 & R2 & R3 & R4). split; [exact R1|]. split; [exact R2|]. split; [|exact R4]. unfold quiet. rewrite R3. split; reflexivity.
Qed.
Print Assumptions C42_check_returns_all.

(** No signal is lost: after a signal has arrived, once the thread is neither in the
    handler nor in a check, the handler has run for it. *)
Theorem C42_not_lost : forall t before after, Forall (of_thread t) before -> Forall (of_thread t) after ->
  quiet (threads (acts process_init (before ++ Arrive t :: after)) t) ->
  handled (acts process_init before) < handled (acts process_init (before ++ Arrive t :: after)).
Proof.
  intros t before after F1 F2 (Q1 & Q2).
  assert (F : Forall (of_thread t) (before ++ Arrive t :: after)) by (apply Forall_app; split; [exact F1|constructor; [reflexivity|exact F2]]).
  pose proof (acts_ok t _ process_init (init_ok t) F) as (_ & _ & _ & _ & _ & _ & _ & P).
  unfold acts in *. rewrite fold_left_app in *. cbn [fold_left] in *.
  pose proof (acts_due t _ after _ (arrive_due t (fold_left act before process_init)) F2) as [D|(_ & [D|D])]; [exact D|contradiction|].
  destruct (P D) as [X|X]; [|contradiction]. rewrite Q2 in X. discriminate.
Qed.
Print Assumptions C42_not_lost.

(** The counter saturates: handling a signal with the counter at INT_MAX leaves it. *)
Theorem C42_saturates : forall s t, handler (threads s t) = Some MAXIMUM -> signaled s = MAXIMUM ->
  signaled (act s (Step t)) = MAXIMUM /\ handled (act s (Step t)) = handled s + 1.
Proof. intros s t H S. unfold act. rewrite H. cbn [signaled handled]. rewrite S. split; reflexivity. Qed.
Print Assumptions C42_saturates.

Example C42_example :
  let s := acts process_init [Arrive 0; Step 0; Arrive 0; Step 0; Step 0; Step 0; Step 0; Arrive 0; Arrive 0; Step 0; Step 0; Step 0; Step 0]%nat in
  returned s = [2] /\ signaled s = 1 /\ handled s = 3 /\ quiet (threads s 0%nat).
Proof. split; [vm_compute; reflexivity|]. split; [vm_compute; reflexivity|]. split; [vm_compute; reflexivity|]. split; vm_compute; reflexivity. Qed.

(** It takes the checking thread to be the one the signal is delivered to: masking the
    signal masks it for the calling thread only. With the handler on another thread
    signals can be counted twice, and they can be lost: here of two signals three are
    returned, and there of two signals only one. *)
Theorem C42_other_thread_refuted :
  (exists actions, let s := acts process_init actions in
     handled s = 2 /\ signaled s = 0 /\ (forall t, quiet (threads s t)) /\ zsum (returned s) = 3) /\
  (exists actions, let s := acts process_init actions in
     handled s = 2 /\ signaled s = 0 /\ (forall t, quiet (threads s t)) /\ zsum (returned s) = 1).
Proof.
  split.
  - exists [Arrive 0; Step 0; Arrive 0; Step 1; Step 1; Step 1; Step 1; Step 1; Step 1; Step 0;
            Step 1; Step 1; Step 1; Step 1; Step 1; Step 1]%nat.
    split; [vm_compute; reflexivity|]. split; [vm_compute; reflexivity|]. split; [|vm_compute; reflexivity].
    intros [|[|t]]; split; vm_compute; reflexivity.
  - exists [Arrive 0; Step 0; Step 1; Step 1; Step 1; Arrive 0; Step 0; Step 1; Step 1; Step 1]%nat.
    split; [vm_compute; reflexivity|]. split; [vm_compute; reflexivity|]. split; [|vm_compute; reflexivity].
    intros [|[|t]]; split; vm_compute; reflexivity.
Qed.
Print Assumptions C42_other_thread_refuted.
