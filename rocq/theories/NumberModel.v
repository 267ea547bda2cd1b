(** Model of diminuto_number.c: the conversion of strings to numbers. Strings are the octets
    before the NUL. strtoull(3) and strtoll(3), with base zero and in the C locale, are as
    ISO C99 7.20.1.4 has them. Simplifications: errno. *)

From Coq Require Import ZArith List Bool.
From Verif Require Import CUtil CInt.
Import ListNotations.
Local Open Scope Z_scope.

(** isspace(3). *)
Definition isspace (c : Z) : bool := (c =? 32) || ((9 <=? c) && (c <=? 13)).
(** What a digit or letter is worth: 0 to 35; 36 for anything else. *)
Definition worth (c : Z) : Z :=
  if (48 <=? c) && (c <=? 57) then c - 48
  else if (97 <=? c) && (c <=? 122) then c - 97 + 10
  else if (65 <=? c) && (c <=? 90) then c - 65 + 10
  else 36.

Fixpoint spaces (l : list Z) : list Z :=
  match l with
  | c :: l' => if isspace c then spaces l' else l
  | [] => []
  end.
(** The value of the digits, what is left, and whether there were any. *)
Fixpoint digits (base : Z) (l : list Z) (value : Z) (any : bool) : Z * list Z * bool :=
  match l with
  | c :: l' => if worth c <? base then digits base l' (value * base + worth c) true else (value, l, any)
  | [] => (value, l, any)
  end.
(** The base and where its digits start. *)
Definition prefix (l : list Z) : Z * list Z :=
  match l with
  | 48 :: x :: ((d :: _) as l') => if ((x =? 120) || (x =? 88)) && (worth d <? 16) then (16, l') else (8, l)
  | 48 :: _ => (8, l)
  | _ => (10, l)
  end.
(** Whether there is a minus sign, the value after it, and what is left. *)
Definition subject (s : list Z) : option (bool * Z * list Z) :=
  let l := spaces s in
  let '(negative, l) :=
    match l with
    | c :: l' => if c =? 45 then (true, l') else if c =? 43 then (false, l') else (false, l)
    | [] => (false, l)
    end in
  let '(base, l) := prefix l in
  match digits base l 0 false with
  | (value, rest, true) => Some (negative, value, rest)
  | (_, _, false) => None
  end.

Definition ULLONG_MAX : Z := 18446744073709551615.
Definition LLONG_MAX : Z := 9223372036854775807.
Definition LLONG_MIN : Z := -9223372036854775808.

(** strtoull(3), strtoll(3) (and strtol(3), where long has 64 bits): the value, and what is
    left, which is all if there is no number. *)
Definition strtoull (s : list Z) : Z * list Z :=
  match subject s with
  | None => (0, s)
  | Some (negative, value, rest) =>
      (if value >? ULLONG_MAX then ULLONG_MAX else if negative then u64 (- value) else value, rest)
  end.
Definition strtoll (s : list Z) : Z * list Z :=
  match subject s with
  | None => (0, s)
  | Some (negative, value, rest) =>
      let value := if negative then - value else value in
      (if value >? LLONG_MAX then LLONG_MAX else if value <? LLONG_MIN then LLONG_MIN else value, rest)
  end.

(** src/diminuto_number.c:17-28 diminuto_number_unsigned and 30-41 diminuto_number_signed:
    the number, and the string that is returned. *)
Definition number_unsigned (s : list Z) : Z * list Z := strtoull s.
Definition number_signed (s : list Z) : Z * list Z := strtoll s.
