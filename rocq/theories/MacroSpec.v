(** Specification for macros. *)

From Coq Require Import ZArith List Bool.
From Verif Require Import MacroModel.
Import ListNotations.
Local Open Scope Z_scope.

(** The values of a type. *)
Definition value (t : type) (x : Z) : Prop :=
  if signed t then - 2 ^ (bits t - 1) <= x < 2 ^ (bits t - 1) else 0 <= x < 2 ^ bits t.
(** Types of whole octets. *)
Definition whole (t : type) : Prop := exists n, 0 < n /\ bits t = 8 * n.

(** What goes wrong in a test, up to the first thing that is fatal. *)
Fixpoint wrong (i : item) : Z * bool :=
  match i with
  | Failure | Expect false => (1, true)
  | Fatal => (1, false)
  | Test body =>
      (fix all (l : list item) : Z * bool :=
        match l with
        | [] => (0, true)
        | i :: l => let '(n, on) := wrong i in if on then let '(m, on') := all l in (n + m, on') else (n, false)
        end) body
  | _ => (0, true)
  end.
Fixpoint wrongs (l : list item) : Z * bool :=
  match l with
  | [] => (0, true)
  | i :: l => let '(n, on) := wrong i in if on then let '(m, on') := wrongs l in (n + m, on') else (n, false)
  end.
