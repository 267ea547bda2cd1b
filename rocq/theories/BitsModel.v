(** Model of diminuto_bits.h, for an array of unsigned elements of [w] bits. *)

From Coq Require Import ZArith List Bool.
From Verif Require Import CInt.
Import ListNotations.
Local Open Scope Z_scope.

(** Conversion to the unsigned element type. *)
Definition uw (w x : Z) : Z := x mod 2 ^ w.

(** inc/com/diag/diminuto/diminuto_bits.h:36-37. *)
Definition COUNT (w bits : Z) : Z := (bits + w - 1) / w.

(** inc diminuto_bits.h:44-45 and 52-53. *)
Definition INDEX (w bit : Z) : Z := bit / w.
Definition OFFSET (w bit : Z) : Z := bit mod w.

(** inc diminuto_bits.h:60-61. *)
Definition MASK (w : Z) : Z := uw w (Z.lnot 0).

(** inc diminuto_bits.h:68-69. *)
Definition OR (w bit : Z) : Z := uw w (Z.shiftl 1 (OFFSET w bit)).

(** inc diminuto_bits.h:76-77. *)
Definition AND (w bit : Z) : Z := uw w (Z.lnot (Z.shiftl 1 (OFFSET w bit))).

(** Reading and writing an array element; [None] is out of bounds. *)
Definition peek (l : list Z) (i : Z) : option Z := nth_error l (Z.to_nat i).
Definition poke (l : list Z) (i x : Z) : option (list Z) :=
  if Nat.ltb (Z.to_nat i) (length l) then Some (firstn (Z.to_nat i) l ++ x :: skipn (S (Z.to_nat i)) l) else None.

(** inc diminuto_bits.h:84-85. *)
Definition GET (w bit : Z) (l : list Z) : option Z :=
  match peek l (INDEX w bit) with
  | None => None
  | Some x => Some (uw w (Z.shiftr (Z.land x (OR w bit)) (OFFSET w bit)))
  end.

(** inc diminuto_bits.h:92-93. *)
Definition SET (w bit : Z) (l : list Z) : option (list Z) :=
  match peek l (INDEX w bit) with
  | None => None
  | Some x => poke l (INDEX w bit) (uw w (Z.lor x (OR w bit)))
  end.

(** inc diminuto_bits.h:100-101. *)
Definition CLEAR (w bit : Z) (l : list Z) : option (list Z) :=
  match peek l (INDEX w bit) with
  | None => None
  | Some x => poke l (INDEX w bit) (uw w (Z.land x (AND w bit)))
  end.
