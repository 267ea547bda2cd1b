(** Model of diminuto_fibonacci.h. *)

From Coq Require Import ZArith List Bool.
From Verif Require Import CInt.
Import ListNotations.
Local Open Scope Z_scope.

(** inc/com/diag/diminuto/diminuto_fibonacci.h:54-58, fields uint32_t. *)
Record fibonacci := Fibonacci { x1 : Z; x0 : Z; xm : Z }.

(** inc diminuto_fibonacci.h:68-74. *)
Definition init (v0 v1 vm : Z) : fibonacci := Fibonacci v1 v0 vm.

(** inc diminuto_fibonacci.h:92-95, 103-106 and 114-117. *)
Definition init_classic : fibonacci := init 1 1 4294967295.
Definition init_modern : fibonacci := init 0 1 4294967295.
Definition init_advanced : fibonacci := init 1 2 4294967295.

(** inc diminuto_fibonacci.h:127-131: the new state and the old limit. *)
Definition set_limit (s : fibonacci) (vm : Z) : fibonacci * Z :=
  (Fibonacci (x1 s) (x0 s) vm, xm s).

(** inc diminuto_fibonacci.h:144-153: the new state and the value. *)
Definition next (s : fibonacci) : fibonacci * Z :=
  let xn := x0 s in
  let v1 := if u32 (xm s - x1 s) >? xn then u32 (x1 s + xn) else x1 s in
  (Fibonacci v1 (x1 s) (xm s), xn).

(** The state after [n] calls, and the value of the call after those. *)
Definition after (s : fibonacci) (n : nat) : fibonacci := Nat.iter n (fun s => fst (next s)) s.
Definition value (s : fibonacci) (n : nat) : Z := snd (next (after s n)).

(** Histories that also change the limit, and the values they return. *)
Inductive op := Next | SetLimit (vm : Z).

Fixpoint history (s : fibonacci) (ops : list op) : list Z :=
  match ops with
  | [] => []
  | Next :: r => snd (next s) :: history (fst (next s)) r
  | SetLimit vm :: r => history (fst (set_limit s vm)) r
  end.
