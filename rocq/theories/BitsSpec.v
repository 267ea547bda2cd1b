(** A bit set as one big number: bit b of the number is bit b of the set. *)

From Coq Require Import ZArith List.
Import ListNotations.
Local Open Scope Z_scope.

(** Elements of [w] bits, least significant first. *)
Fixpoint number (w : Z) (l : list Z) : Z :=
  match l with
  | [] => 0
  | x :: r => x + 2 ^ w * number w r
  end.

(** Well formed: every element fits. *)
Definition elements (w : Z) (l : list Z) : Prop := Forall (fun x => 0 <= x < 2 ^ w) l.
