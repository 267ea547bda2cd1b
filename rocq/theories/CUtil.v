(** Small lemmas shared by several proofs. *)

From Coq Require Import ZArith List Lia Bool.
Import ListNotations.
Local Open Scope Z_scope.

(** A property checked for every number below [n] holds for every number below
    [n]: how finite domains are settled by computation. *)
Definition below (n : nat) : list Z := map Z.of_nat (seq 0 n).

Lemma in_below n x : 0 <= x < Z.of_nat n -> In x (below n).
Proof.
  intros H. unfold below. apply in_map_iff. exists (Z.to_nat x).
  split; [lia|]. apply in_seq. lia.
Qed.

Lemma all_below n (P : Z -> bool) :
  forallb P (below n) = true -> forall x, 0 <= x < Z.of_nat n -> P x = true.
Proof. intros H x Hx. rewrite forallb_forall in H. apply H, in_below, Hx. Qed.

Lemma all_below2 n m (P : Z -> Z -> bool) :
  forallb (fun x => forallb (P x) (below m)) (below n) = true ->
  forall x y, 0 <= x < Z.of_nat n -> 0 <= y < Z.of_nat m -> P x y = true.
Proof.
  intros H x y Hx Hy. pose proof (all_below n _ H x Hx) as H1. exact (all_below m _ H1 y Hy).
Qed.

(** Sequencing of computations of which [None] is undefined behaviour. *)
Definition bind {A B : Type} (x : option A) (f : A -> option B) : option B :=
  match x with None => None | Some a => f a end.
Notation "'let*' x ':=' a 'in' b" := (bind a (fun x => b)) (at level 200, x binder, a at level 100, b at level 200).
