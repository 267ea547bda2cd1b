(** What is a line. *)

From Coq Require Import ZArith List Bool.
Import ListNotations.
Local Open Scope Z_scope.

(** Lines, each of which ends with a newline, and what is after the last. *)
Fixpoint lines (chs : list Z) : list (list Z) * list Z :=
  match chs with
  | [] => ([], [])
  | ch :: chs =>
      let '(ls, rest) := lines chs in
      if ch =? 10 then ([] :: ls, rest)
      else match ls with [] => ([], ch :: rest) | l :: ls => ((ch :: l) :: ls, rest) end
  end.
(** The frame of a line, if there is room for so many octets. *)
Definition frame_of (room : nat) (l : list Z) : list Z := firstn (room - 1) l ++ [10].
(** Those up to and including the first that cannot be sent. *)
Fixpoint until_failure (sends : nat -> bool) (n : nat) (fs : list (list Z)) : list (list Z) :=
  match fs with [] => [] | f :: fs => f :: if sends n then until_failure sends (S n) fs else [] end.
