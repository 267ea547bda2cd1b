(** Specification for the shaping utilities. *)

From Coq Require Import ZArith List Bool.
From Verif Require Import ShapeModel.
Import ListNotations.
Local Open Scope Z_scope.

(** What is there to be read: all up to the end or to what breaks it. *)
Fixpoint supplied (reads : list event) : list (list Z) :=
  match reads with
  | Data block :: reads => block :: supplied reads
  | Interrupted :: reads => supplied reads
  | _ => []
  end.
Fixpoint ending (reads : list event) : option Z :=
  match reads with
  | [] => None
  | End :: _ => Some 0
  | Broken :: _ => Some 3
  | _ :: reads => ending reads
  end.

(** The clock: it does not run backwards, nor for 2^64 ticks. *)
Fixpoint ticking (start last : Z) (polls : list Z) : Prop :=
  match polls with [] => True | t :: polls => last <= t < start + 2 ^ 64 /\ ticking start t polls end.

Definition amount (l : list (Z * Z)) : Z := fold_right (fun x acc => snd x + acc) 0 l.

Definition prefix (a b : list Z) : Prop := exists c, b = a ++ c.

(** Every write that writes anything writes all of its block; or every write does. *)
Definition whole (writes : list Z) (blocks : list (list Z)) : Prop :=
  forall i w b, nth_error writes i = Some w -> nth_error blocks i = Some b -> w <= 0 \/ w = Z.of_nat (length b).
Definition works (writes : list Z) (blocks : list (list Z)) : Prop :=
  forall i w b, nth_error writes i = Some w -> nth_error blocks i = Some b -> w = Z.of_nat (length b).
