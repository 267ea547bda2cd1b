(** What is told about the time. *)

From Coq Require Import ZArith List Bool.
From Verif Require Import TimeModel.
Import ListNotations.
Local Open Scope Z_scope.

(** Just so many decimal digits. *)
Fixpoint decimal (width : nat) (n : Z) : list Z :=
  match width with O => [] | S w => decimal w (n / 10) ++ [48 + n mod 10] end.

(** ISO 8601 with nanoseconds, and the offset of a time zone in hours and minutes. *)
Definition iso (d : date) (nanoseconds : Z) : list Z :=
  decimal 4 (year d) ++ [45] ++ decimal 2 (month d) ++ [45] ++ decimal 2 (day d) ++ [84] ++
  decimal 2 (hour d) ++ [58] ++ decimal 2 (minute d) ++ [58] ++ decimal 2 (second d) ++ [46] ++ decimal 9 nanoseconds.
Definition zone (east : bool) (hours minutes : Z) : list Z :=
  [if east then 43 else 45] ++ decimal 2 hours ++ [58] ++ decimal 2 minutes.

(** A date that has this form. *)
Definition plain (d : date) : Prop :=
  0 <= year d <= 9999 /\ 1 <= month d <= 12 /\ 1 <= day d <= 31 /\ 0 <= hour d <= 23 /\ 0 <= minute d <= 59 /\ 0 <= second d <= 60.
(** How the C library gives it. *)
Definition broken_down (d : date) : date := Date (year d - 1900) (month d - 1) (day d) (hour d) (minute d) (second d).
