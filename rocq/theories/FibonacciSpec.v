(** Fibonacci sequences. *)

From Coq Require Import ZArith List.
From Verif Require Import FibonacciModel.
Import ListNotations.
Local Open Scope Z_scope.

(** The n-th and the next element of the sequence that starts with a, b. *)
Fixpoint fibs (a b : Z) (n : nat) : Z :=
  match n with
  | O => a
  | S n => fibs b (a + b) n
  end.

(** Each new limit is at least the one before (and a uint32_t). *)
Fixpoint raised (limit : Z) (ops : list op) : Prop :=
  match ops with
  | [] => True
  | Next :: r => raised limit r
  | SetLimit v :: r => limit <= v < 4294967296 /\ raised v r
  end.

Fixpoint last_limit (limit : Z) (ops : list op) : Z :=
  match ops with
  | [] => limit
  | Next :: r => last_limit limit r
  | SetLimit v :: r => last_limit v r
  end.

Fixpoint nondecreasing (v : Z) (l : list Z) : Prop :=
  match l with
  | [] => True
  | w :: r => v <= w /\ nondecreasing w r
  end.
