(** Property C45. *)

From Coq Require Import ZArith List Bool Lia.
From Verif Require Import CInt MemoryModel MemorySpec MemoryProofs.
Import ListNotations.
Local Open Scope Z_scope.

(** Up to 2^63 the power computed is the least power of two not below the
    argument. *)
Theorem C45_power : forall a, 0 <= a <= 2 ^ 63 ->
  exists p, power a = Some p /\ power_of_two p /\ a <= p /\
    forall p', power_of_two p' -> a <= p' -> p <= p'.
Proof. exact power_least. Qed.
Print Assumptions C45_power.

(** Beyond, the shift overflows, and the result is zero: not a power of two. *)
Theorem C45_power_overflow_refuted : forall a, 2 ^ 63 < a -> power a = Some 0 /\ ~ power_of_two 0.
Proof.
  intros a H. split; [apply (power_overflow_ok 64 0 a); lia|]. intros (k & Hk & E).
  pose proof (Z.pow_pos_nonneg 2 k ltac:(lia) Hk). lia.
Qed.
Print Assumptions C45_power_overflow_refuted.

(** The test for a power of two is exact, for every value of size_t. *)
Theorem C45_is_power : forall x, is_u64 x -> exists b, is_power x = Some b /\ (b = true <-> power_of_two x).
Proof. exact is_power_spec. Qed.
Print Assumptions C45_is_power.

(** The effective size is the least multiple of the alignment that is not below
    the size, if the alignment is a power of two and nothing overflows. *)
Theorem C45_alignment : forall size align,
  0 <= size -> power_of_two align -> size + align <= 2 ^ 64 ->
  least_multiple size align (alignment size align).
Proof. exact alignment_least. Qed.
Print Assumptions C45_alignment.

(** Without a power of two it need not be a multiple at all. *)
Theorem C45_alignment_not_power_refuted : ~ (12 | alignment 5 12) /\ alignment 5 12 = 16.
Proof. split; [|reflexivity]. intros (c & H). change (alignment 5 12) with 16 in H. lia. Qed.
Print Assumptions C45_alignment_not_power_refuted.

(** The allocator is called with arguments POSIX allows: a power of two that is a
    multiple of the pointer size and of the requested alignment, and a size that
    is the least multiple of it not below the requested one. *)
Theorem C45_aligned_arguments : forall memalign align size,
  power_of_two align -> align <= 2 ^ 63 -> 0 <= size -> size + Z.max align 8 <= 2 ^ 64 ->
  power_of_two (Z.max align 8) /\ (align | Z.max align 8) /\ (pointer_size | Z.max align 8) /\
  exists size', least_multiple size (Z.max align 8) size' /\
    aligned memalign align size =
    (let '(rc, pointer) := memalign (Z.max align 8) size' in
     if rc >? 0 then (0, Some rc) else if rc <? 0 then (0, Some (- rc))
     else if pointer =? 0 then (0, Some 14) else (pointer, None)).
Proof.
  intros m a s H1 H2 H3 H4. destruct (pow_max_8 a H1) as (A & B & C). split; [exact A|]. split; [exact B|].
  split; [exact C|]. exact (aligned_args m a s H1 H2 H3 H4).
Qed.
Print Assumptions C45_aligned_arguments.

(** With any allocator that does what POSIX says, the result is an aligned
    pointer, or a null pointer with the error number set. *)
Theorem C45_aligned : forall memalign align size,
  posix memalign -> power_of_two align -> align <= 2 ^ 63 -> 0 <= size -> size + Z.max align 8 <= 2 ^ 64 ->
  let '(pointer, err) := aligned memalign align size in
  (pointer <> 0 /\ err = None /\ (align | pointer)) \/ (pointer = 0 /\ exists e, err = Some e /\ 0 < e).
Proof. exact aligned_result. Qed.
Print Assumptions C45_aligned.

(** An alignment that is not a power of two can still be one that POSIX refuses,
    although the comment in the code says it is ensured: 20 becomes 24. *)
Theorem C45_aligned_not_power_refuted : forall memalign, posix memalign ->
  fst (aligned memalign 20 100) = 0.
Proof.
  intros m H. unfold aligned. change (alignment 20 pointer_size) with 24. specialize (H 24 (alignment 100 24)).
  destruct (m 24 (alignment 100 24)) as [rc p]. destruct H as (H & H').
  destruct (rc >? 0) eqn:G; [reflexivity|]. destruct (Z.ltb_spec rc 0); [lia|].
  assert (rc = 0) by (rewrite Z.gtb_ltb in G; apply Z.ltb_ge in G; lia).
  destruct (H H1) as ((k & Hk & E) & _). exfalso.
  destruct (Z.lt_ge_cases k 5) as [L|L].
  - assert (C : k = 0 \/ k = 1 \/ k = 2 \/ k = 3 \/ k = 4) by lia.
    destruct C as [->|[->|[->|[->| ->]]]]; vm_compute in E; discriminate.
  - assert (2 ^ 5 <= 2 ^ k) by (apply Z.pow_le_mono_r; lia). change (2 ^ 5) with 32 in *. lia.
Qed.
Print Assumptions C45_aligned_not_power_refuted.

Example C45_example :
  map power [0; 1; 3; 64; 65; 2 ^ 63] = map Some [1; 1; 4; 64; 128; 2 ^ 63] /\
  map is_power [0; 1; 96; 128; 2 ^ 63] = map Some [false; true; false; true; true] /\
  alignment 100 64 = 128 /\ alignment 128 64 = 128.
Proof. vm_compute. auto. Qed.
(** An allocator that satisfies the hypothesis. *)
Example C45_posix_example : posix (fun align _ => if align =? 64 then (0, 64 * 100) else (12, 0)).
Proof.
  intros align size. destruct (Z.eqb_spec align 64) as [->|N]; [|split; [discriminate|lia]].
  split; [|lia]. intros _. split; [exists 6; split; [lia|reflexivity]|]. split; [exists 8; reflexivity|].
  split; [lia|]. exists 100. reflexivity.
Qed.
