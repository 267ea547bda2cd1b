(** Model of diminuto_cue.c and diminuto_cue.h. *)

From Coq Require Import ZArith List Bool.
From Verif Require Import CInt.
Import ListNotations.
Local Open Scope Z_scope.

(** inc/com/diag/diminuto/diminuto_cue.h:52-58, one bit fields. *)
Record cue := Cue { a : bool; b : bool; c : bool; r : bool; p : bool }.

(** The C idiom !!x. *)
Definition truth (x : Z) : bool := negb (x =? 0).

(** diminuto_cue.c:15-24. *)
Definition init (initial : Z) : cue :=
  let i := truth initial in Cue i i i i i.

(** diminuto_cue.c:26-33; the value returned is the new [r]. *)
Definition debounce (s : cue) (input : Z) : cue :=
  let c' := b s in
  let b' := a s in
  let a' := truth input in
  let p' := r s in
  Cue a' b' c' ((p' && (a' || b' || c')) || (a' && b' && c')) p'.

(** inc diminuto_cue.h:95-97. *)
Definition state (s : cue) : bool := r s.

(** inc diminuto_cue.h:118-123. *)
Inductive edge_t := LOW | RISING | HIGH | FALLING.
Definition edge_value (e : edge_t) : Z :=
  match e with LOW => 0 | RISING => 5 | HIGH => 3 | FALLING => 6 end.

(** diminuto_cue.c:35-54. *)
Definition edge (s : cue) : edge_t :=
  if negb (p s) then (if negb (r s) then LOW else RISING)
  else (if negb (r s) then FALLING else HIGH).

(** inc diminuto_cue.h:138-141 and 149-152. *)
Definition isrising (s : cue) : bool := a s && negb (b s).
Definition isfalling (s : cue) : bool := negb (a s) && b s.

(** A history of samples after initialisation. *)
Definition run (initial : Z) (samples : list Z) : cue := fold_left debounce samples (init initial).
