(** What alignment means. *)

From Coq Require Import ZArith.
From Verif Require Import CInt MemoryModel.
Local Open Scope Z_scope.

Definition power_of_two (x : Z) : Prop := exists k, 0 <= k /\ x = 2 ^ k.

(** [m] is the least multiple of [n] that is at least [x]. *)
Definition least_multiple (x n m : Z) : Prop :=
  (n | m) /\ x <= m /\ forall m', (n | m') -> x <= m' -> m <= m'.

(** An allocator as POSIX describes it: an error for an alignment that is not a
    power of two and a multiple of the pointer size, and never an error together
    with success; on success the pointer is aligned. *)
Definition posix (memalign : memalign_t) : Prop :=
  forall align size, let '(rc, pointer) := memalign align size in
    (rc = 0 -> power_of_two align /\ (pointer_size | align) /\ pointer <> 0 /\ (align | pointer)) /\ 0 <= rc.
