(** Model of diminuto_testify.c: whether a string means yes or no. Strings are the octets
    before the NUL. strtol(3) is as in NumberModel, where long has 64 bits. *)

From Coq Require Import ZArith List Bool.
From Verif Require Import CInt NumberModel.
Import ListNotations.
Local Open Scope Z_scope.

(** src/diminuto_testify.c:25-31: a, c, e, h, t, u and y, small and capital. *)
Definition ayes : list Z := [97; 65; 99; 67; 101; 69; 104; 72; 116; 84; 117; 85; 121; 89].
(** src/diminuto_testify.c:34-38: d, f, i, n and l. *)
Definition noes : list Z := [100; 68; 102; 70; 105; 73; 110; 78; 108; 76].
Definition among (c : Z) (l : list Z) : bool := existsb (Z.eqb c) l.

(** src/diminuto_testify.c:18-75 diminuto_testify. The character after the last is the NUL;
    the number is stored in 32 bits. *)
Definition testify (testimony : option (list Z)) (otherwise : Z) : Z :=
  match testimony with
  | None => otherwise
  | Some s =>
      let c := nth 0 s 0 in
      if among c ayes then 1
      else if among c noes then 0
      else if among c [111; 79] then
        let d := nth 1 s 0 in
        if among d [110; 78] then 1 else if among d [102; 70; 112; 80] then 0 else otherwise
      else if among c [48; 49; 50; 51; 52; 53; 54; 55; 56; 57] then
        let '(value, end_) := strtoll s in
        let value := s32 value in
        match end_ with [] => if value =? 0 then 0 else 1 | _ => otherwise end
      else otherwise
  end.

(** inc/com/diag/diminuto/diminuto_testify.h:39 DIMINUTO_TESTIFY: TRUE, true, false and
    FALSE are 1, 2, 3 and 4. *)
Definition printable (value otherwise : Z) : Z :=
  if negb (value =? 0) then (if negb (otherwise =? 0) then 1 else 2) else (if negb (otherwise =? 0) then 3 else 4).
