(** Property C53. *)

From Coq Require Import ZArith List Bool Arith Lia Permutation.
From Verif Require Import CUtil CInt ListModel ListSpec ScattergatherModel ScattergatherSpec ScattergatherProofs ScattergatherProofs2 ScattergatherProofs3 ScattergatherProofs4 ScattergatherProofs5.
Import ListNotations.
Local Open Scope nat_scope.

(** Whatever is done with a pool, as long as it may be done: nothing is undefined, no loop
    is endless, and each operation returns what it returns of sequences: segments are on
    their record in the order they were put there, counts and sums are exact, and what is
    written is the data of the segments one after the other. In the end each node is in one
    place, in the pool, on a record or by itself, and as the specification says; and the
    buffers that are allocated are one for each segment, with its data, and no others. *)
Theorem C53_refines : forall fuel pp sa h cs r results, proper fuel pp sa ->
  r_perform_all (r_start sa) cs = Some (r, results) ->
  exists s s', start fuel h pp sa = Some s /\ perform_all fuel pp s cs = Some (s', results) /\
    represents (nodes s') ((pp :: pool r) :: lists r) /\
    Permutation (pool r ++ concat (lists r)) sa /\
    (forall x c, segment r x = Some c -> In x (concat (lists r)) /\ buffers s' (data (nodes s' x)) = Some (Buffer (length_of c) (field c))) /\
    (forall x y c d, segment r x = Some c -> segment r y = Some d -> data (nodes s' x) = data (nodes s' y) -> x = y) /\
    (forall b, buffers s' b <> None -> exists x c, segment r x = Some c /\ data (nodes s' x) = b).
Proof.
  intros fuel pp sa h cs r res (N & Z & L) E. destruct (start_ok fuel pp sa L Z h N) as (s & E0 & R0). destruct (perform_all_ok fuel pp sa L Z cs s _ _ _ R0 E) as (s' & E1 & R1).
  exists s, s'. split; [exact E0|]. split; [exact E1|]. split; [exact (links _ _ _ _ R1)|]. split; [exact (same _ _ _ _ R1)|]. split; [|split].
  - intros x c H. destruct (used _ _ _ _ R1 x c H) as (A & _ & B & _). auto.
  - intros x y c d Hx Hy H. apply (apart _ _ _ _ R1); [apply is_segment_true; eauto|apply is_segment_true; eauto|exact H].
  - intros b H. destruct (owned _ _ _ _ R1 b H) as (_ & x & A & B). apply is_segment_true in A as (c & A). exists x, c. auto.
Qed.
Print Assumptions C53_refines.

(** So when everything has been given back, the pool has all its nodes, and no buffer is
    allocated. *)
Theorem C53_all_back : forall fuel pp sa h cs r results s s', proper fuel pp sa ->
  r_perform_all (r_start sa) cs = Some (r, results) -> start fuel h pp sa = Some s -> perform_all fuel pp s cs = Some (s', results) ->
  lists r = [] -> Permutation (pool r) sa /\ represents (nodes s') [pp :: pool r] /\ forall b, buffers s' b = None.
Proof.
  intros fuel pp sa h cs r res s s' P E E0 E1 El. destruct (C53_refines fuel pp sa h cs r res P E) as (t & t' & F0 & F1 & A1 & A2 & A3 & _ & A5).
  assert (t = s) by congruence. subst t. assert (t' = s') by congruence. subst t'. rewrite El in *. cbn in A2. rewrite app_nil_r in A2. split; [exact A2|]. split; [exact A1|].
  intros b. destruct (buffers s' b) eqn:Eb; [|reflexivity]. destruct (A5 b) as (x & c & H & _); [congruence|]. destruct (A3 x c H) as ([] & _).
Qed.
Print Assumptions C53_all_back.

(** Octets that are read into a record are then its data, from the first segment on, and
    are what is written. *)
Theorem C53_read_write : forall fuel pp sa h cs r results x bs n, proper fuel pp sa ->
  r_perform_all (r_start sa) cs = Some (r, results) -> is_record r x = true -> 1 <= length (parts r x) <= 1024 -> length bs <= length (message r x) ->
  exists s s', start fuel h pp sa = Some s /\
    perform_all fuel pp s (cs ++ [Read x (Some bs); Write x n]) =
      Some (s', results ++ [Number (Z.of_nat (length bs)); Written n (firstn (Z.to_nat n) (bs ++ skipn (length bs) (message r x)))]).
Proof.
  intros fuel pp sa h cs r res x bs n (N & Z & L) E Rx Li Lb. destruct (start_ok fuel pp sa L Z h N) as (s & E0 & R0). destruct (perform_all_ok fuel pp sa L Z cs s _ _ _ R0 E) as (s1 & E1 & R1).
  assert (Li' : limits r x = true) by (unfold limits; destruct (Nat.leb_spec 1 (length (parts r x))), (Nat.leb_spec (length (parts r x)) 1024); try reflexivity; lia).
  destruct (read_write_ok fuel pp sa L Z s1 r x bs n R1 Rx Li' Lb) as (s2 & E2). exists s, s2. split; [exact E0|]. exact (perform_app fuel pp sa L Z _ _ _ _ _ _ _ E1 E2).
Qed.
Print Assumptions C53_read_write.

(** The end of a pool leaves each of its nodes by itself. *)
Theorem C53_pool_fini : forall fuel pp sa h cs r results s s', proper fuel pp sa ->
  r_perform_all (r_start sa) cs = Some (r, results) -> start fuel h pp sa = Some s -> perform_all fuel pp s cs = Some (s', results) ->
  exists h', pool_fini fuel fuel (nodes s') pp = Some h' /\ represents h' ([pp] :: map (fun x => [x]) (rev (pool r)) ++ lists r).
Proof.
  intros fuel pp sa h cs r res s s' (N & Z & L) E E0 E1. destruct (start_ok fuel pp sa L Z h N) as (t & F0 & R0). destruct (perform_all_ok fuel pp sa L Z cs t _ _ _ R0 E) as (t' & F1 & R1).
  assert (t = s) by congruence. subst t. assert (t' = s') by congruence. subst t'.
  apply (pool_fini_ok fuel pp sa L Z); [exact (links _ _ _ _ R1)|exact (rel_len _ _ _ _ R1 _ L)| |].
  - intros H. apply Z. right. apply (Permutation_in _ (same _ _ _ _ R1)), in_or_app. left. exact H.
  - pose proof (Permutation_length (same _ _ _ _ R1)) as Q. rewrite app_length in Q. lia.
Qed.
Print Assumptions C53_pool_fini.

Definition demo : list call :=
  [RecordAllocate; SegmentAllocate 3 (Some [0; 0; 0]%Z); SegmentAllocate 2 (Some [9; 9]%Z); SegmentAllocate 4 (Some [0; 0; 0; 0]%Z);
   Append 1 2; Prepend 1 3; InsertAfter 3 4; Store 4 [7; 8; 9]%Z; LengthSet 4 2; Enumerate 1; Measure 1; Vectorize 1 3; Vectorize 1 2; Head 1; Tail 1; Next 4; Next 2; Previous 4;
   Write 1 5; Read 1 (Some [1; 2; 3; 4; 5]%Z); Load 3; Load 4; Load 2; SegmentRemove 4; SegmentAllocate 1 (Some [5]%Z); SegmentAllocate 1 (Some [6]%Z); ReplaceWith 2 5;
   Send 1 9; SegmentFree 2; SegmentFree 4].
Example C53_example : proper 9 6 [1; 2; 3; 4; 5] /\
  option_map (fun '(r, xs) => (pool r, lists r, map (segment r) [1; 2; 3; 4; 5], xs)) (r_perform_all (r_start [1; 2; 3; 4; 5]) demo) =
    Some ([2; 4], [[1; 3; 5]], [None; None; Some (Content 2 [1; 2]%Z); None; Some (Content 1 [5]%Z)],
      [Pointer 1; Pointer 2; Pointer 3; Pointer 4; Nothing; Nothing; Nothing; Nothing; Nothing; Number 3; Number 7; Vector (Some [[9; 9]; [7; 8]; [0; 0; 0]]%Z); Vector None; Pointer 3; Pointer 2; Pointer 2; Pointer 0; Pointer 3;
       Written 5 [9; 9; 7; 8; 0]%Z; Number 5; Octets [1; 2]%Z; Octets [3; 4]%Z; Octets [5; 0; 0]%Z; Nothing; Pointer 5; Pointer 0; Nothing; Written 9 [1; 2; 5]%Z; Nothing; Nothing]) /\
  option_map (fun '(r, xs) => (pool r, lists r)) (r_perform_all (r_start [1; 2; 3; 4; 5]) (demo ++ [RecordFree 1])) = Some ([2; 4; 3; 5; 1], []).
Proof.
  split; [split; [repeat constructor; cbn; intuition congruence|split; [cbn; intuition congruence|cbn; lia]]|]. split; vm_compute; reflexivity.
Qed.

(** The documentation says that sending or receiving a record returns a negative number in
    case of an error. If the record has no segments, or too many, the error is reported and
    zero returned, which from a receive is the end of the file; writing and reading do
    return -1. *)
Theorem C53_send_error_refuted : forall fuel pp sa h cs r results x n input, proper fuel pp sa ->
  r_perform_all (r_start sa) cs = Some (r, results) -> is_record r x = true -> parts r x = [] \/ 1024 < length (parts r x) -> (Z.of_nat (length (parts r x)) < 18446744073709551616)%Z ->
  exists s s', start fuel h pp sa = Some s /\ perform_all fuel pp s (cs ++ [Send x n; Receive x input]) = Some (s', results ++ [Written 0 []; Number 0]).
Proof.
  intros fuel pp sa h cs r res x n i (N & Z & L) E Rx Li Lm. destruct (start_ok fuel pp sa L Z h N) as (s & E0 & R0). destruct (perform_all_ok fuel pp sa L Z cs s _ _ _ R0 E) as (s1 & E1 & R1).
  assert (Li' : limits r x = false).
  { unfold limits. destruct Li as [-> |Li]; [reflexivity|]. destruct (Nat.leb_spec (length (parts r x)) 1024); [lia|apply andb_false_r]. }
  destruct (send_empty fuel pp sa L Z s1 r x n R1 Rx Li' Lm) as (S1 & S2). exists s, s1. split; [exact E0|]. apply (perform_app fuel pp sa L Z _ _ _ _ _ _ _ E1).
  cbn [perform_all perform]. rewrite S1. cbn [bind]. rewrite S2. reflexivity.
Qed.
Print Assumptions C53_send_error_refuted.
Example C53_send_error_example : proper 3 2 [1] /\
  option_map (fun '(r, xs) => (is_record r 1, parts r 1, xs)) (r_perform_all (r_start [1]) [RecordAllocate; Write 1 5; Read 1 (Some [])]) =
    Some (true, [], [Pointer 1; Written (-1) []; Number (-1)]).
Proof. split; [split; [repeat constructor; cbn; intuition congruence|split; [cbn; intuition congruence|cbn; lia]]|vm_compute; reflexivity]. Qed.

(** What may not be done, and what then happens. *)

(** Appending the last segment of a record to it again takes it off the record. *)
Theorem C53_append_again_refuted : exists cs x, outcome [1; 2; 3] cs = Some [Pointer 1; Pointer 2; Pointer 3; Nothing; Nothing; Number 2] /\
  outcome [1; 2; 3] (cs ++ [Append 1 x; Enumerate 1; Head 1]) = Some [Pointer 1; Pointer 2; Pointer 3; Nothing; Nothing; Number 2; Nothing; Number 1; Pointer 2].
Proof.
  exists [RecordAllocate; SegmentAllocate 1 (Some [5]%Z); SegmentAllocate 1 (Some [6]%Z); Append 1 2; Append 1 3; Enumerate 1], 3. split; vm_compute; reflexivity.
Qed.
Print Assumptions C53_append_again_refuted.
(** Inserting a segment of another record inserts all the nodes of that record, the record
    itself among them; the count is then one too many, and a write follows a null pointer. *)
Theorem C53_insert_elsewhere_refuted : exists cs, outcome [1; 2; 3; 4; 5] cs = Some [Pointer 1; Pointer 2; Pointer 3; Pointer 4; Pointer 5; Nothing; Nothing; Nothing] /\
  option_map (fun l => skipn 8 l) (outcome [1; 2; 3; 4; 5] (cs ++ [InsertAfter 2 3; Enumerate 1; Head 4])) = Some [Nothing; Number 4; Pointer 2] /\
  outcome [1; 2; 3; 4; 5] (cs ++ [InsertAfter 2 3; Write 1 3]) = None.
Proof.
  exists [RecordAllocate; SegmentAllocate 1 (Some [5]%Z); SegmentAllocate 1 (Some [6]%Z); RecordAllocate; SegmentAllocate 1 (Some [7]%Z); Append 1 2; Append 4 3; Append 4 5].
  split; [vm_compute; reflexivity|]. split; vm_compute; reflexivity.
Qed.
Print Assumptions C53_insert_elsewhere_refuted.
(** Inserting a segment elsewhere on its own record does nothing. *)
Theorem C53_insert_same_refuted : exists cs, option_map (fun l => skipn 7 l) (outcome [1; 2; 3; 4] (cs ++ [InsertAfter 4 2; Head 1; Next 2; Next 3])) = Some [Nothing; Pointer 2; Pointer 3; Pointer 4] /\
  option_map (@length result) (outcome [1; 2; 3; 4] cs) = Some 7.
Proof.
  exists [RecordAllocate; SegmentAllocate 1 (Some [5]%Z); SegmentAllocate 1 (Some [6]%Z); SegmentAllocate 1 (Some [7]%Z); Append 1 2; Append 1 3; Append 1 4]. split; vm_compute; reflexivity.
Qed.
Print Assumptions C53_insert_same_refuted.
(** A length beyond the field is accepted, and the octets beyond it are then written. *)
Theorem C53_length_refuted : exists cs, outcome [1; 2] cs = Some [Pointer 1; Pointer 2; Nothing; Nothing] /\ outcome [1; 2] (cs ++ [Write 1 1]) = None.
Proof. exists [RecordAllocate; SegmentAllocate 1 (Some [5]%Z); LengthSet 2 2; Append 1 2]. split; vm_compute; reflexivity. Qed.
Print Assumptions C53_length_refuted.
(** The size of the block for a segment of nearly all of memory wraps around to a few
    octets, in which the length does not have room. *)
Theorem C53_allocate_wraps_refuted : forall size, (18446744073709551608 <= size <= 18446744073709551615)%Z -> outcome [1] [SegmentAllocate size (Some [])] = None.
Proof.
  intros size H. unfold outcome. destruct (start 20 (fun _ => Node 0 0 0 0) 9 [1]) as [s|] eqn:E; [|reflexivity]. cbn [bind perform_all perform].
  unfold segment_allocate. pose proof (start_ok 20 9 [1]) as SO. destruct SO with (h := fun _ : nat => Node 0 0 0 0%Z) as (s0 & E0 & R0); [cbn; lia|cbn; lia|repeat constructor; cbn; lia|].
  assert (s0 = s) by congruence. subst s0. destruct (get_step 20 9 [1] ltac:(cbn; lia) ltac:(cbn; lia) s _ R0) as (s1 & E1 & _). unfold pool_get in *. cbn [nodes].
  destruct (dequeue 20 (nodes s) 9) as [(h, np)|]; cbn [bind] in *; [|reflexivity]. assert (np = 1) by (cbn in E1; congruence). subst np. cbn [Nat.eqb NULL].
  assert (A : u64 (SIZEOF_BUFFER + size) = (size - 18446744073709551608)%Z).
  { unfold u64, SIZEOF_BUFFER. rewrite <- (Z.mod_add _ (-1)) by lia. rewrite Z.mod_small; lia. }
  rewrite A. unfold SIZEOF_BUFFER. destruct (Z.ltb_spec (size - 18446744073709551608) 8); [reflexivity|lia].
Qed.
Print Assumptions C53_allocate_wraps_refuted.
