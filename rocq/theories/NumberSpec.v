(** What strings denote numbers, and which. *)

From Coq Require Import ZArith List Bool.
From Verif Require Import CUtil.
Import ListNotations.
Local Open Scope Z_scope.

(** The digits 0 to 9, a to f, and A to F, each with its value. *)
Definition table : list (Z * Z) :=
  [(48, 0); (49, 1); (50, 2); (51, 3); (52, 4); (53, 5); (54, 6); (55, 7); (56, 8); (57, 9);
   (97, 10); (98, 11); (99, 12); (100, 13); (101, 14); (102, 15);
   (65, 10); (66, 11); (67, 12); (68, 13); (69, 14); (70, 15)].

(** Digits in a base, the most significant first, and the number that they denote. *)
Inductive denotes (base : Z) : list Z -> Z -> Prop :=
| denotes_nil : denotes base [] 0
| denotes_snoc l n c d : denotes base l n -> In (c, d) table -> d < base -> denotes base (l ++ [c]) (n * base + d).

(** Decimal unless there is a leading zero, which is for octal; 0x is for hexadecimal. *)
Inductive body : list Z -> Z -> Prop :=
| body_dec l n : denotes 10 l n -> l <> [] -> hd 0 l <> 48 -> body l n
| body_oct l n : denotes 8 l n -> hd 0 l = 48 -> body l n
| body_hex x l n : denotes 16 l n -> l <> [] -> In x [120; 88] -> body (48 :: x :: l) n.

(** Space, sign, number. *)
Inductive numeral : list Z -> Z -> Prop :=
| numeral_plain sp b n : Forall (fun c => In c [32; 9; 10; 11; 12; 13]) sp -> body b n -> numeral (sp ++ b) n
| numeral_plus sp b n : Forall (fun c => In c [32; 9; 10; 11; 12; 13]) sp -> body b n -> numeral (sp ++ 43 :: b) n
| numeral_minus sp b n : Forall (fun c => In c [32; 9; 10; 11; 12; 13]) sp -> body b n -> numeral (sp ++ 45 :: b) (- n).

(** No digit or letter comes next. *)
Definition ends (rest : list Z) : Prop :=
  match rest with [] => True | c :: _ => ~ (48 <= c <= 57) /\ ~ (97 <= c <= 122) /\ ~ (65 <= c <= 90) end.

(** How numbers are written: in decimal, hexadecimal and octal. *)
Definition letter (d : Z) : Z := nth (Z.to_nat d) [48; 49; 50; 51; 52; 53; 54; 55; 56; 57; 97; 98; 99; 100; 101; 102] 0.
Fixpoint write (fuel : nat) (base n : Z) : list Z :=
  match fuel with
  | O => []
  | S fuel => if n =? 0 then [] else write fuel base (n / base) ++ [letter (n mod base)]
  end.
Definition dec (n : Z) : list Z := if n =? 0 then [48] else write 64 10 n.
Definition hex (n : Z) : list Z := [48; 120] ++ (if n =? 0 then [48] else write 64 16 n).
Definition oct (n : Z) : list Z := 48 :: write 64 8 n.

(** The nearest number of a range. *)
Definition clip (low high n : Z) : Z := Z.max low (Z.min high n).
