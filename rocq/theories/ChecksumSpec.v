(** Textbook definitions of the two checksums, independent of the code. *)

From Coq Require Import ZArith List.
Import ListNotations.
Local Open Scope Z_scope.

(** Fletcher's checksum: plain sum, and position weighted sum where the first
    octet of an n octet string has weight n and the last has weight 1. *)
Fixpoint sum (l : list Z) : Z :=
  match l with [] => 0 | x :: r => x + sum r end.

Fixpoint weighted (l : list Z) : Z :=
  match l with [] => 0 | x :: r => Z.of_nat (length l) * x + weighted r end.

(** One step of the bit serial CRC with reflected polynomial
    x^16 + x^12 + x^5 + 1 (0x8408): shift right, and if the bit shifted out is
    one, add the polynomial. *)
Definition crc_bit (c : Z) : Z :=
  if Z.odd c then Z.lxor (Z.shiftr c 1) 0x8408 else Z.shiftr c 1.

(** An octet enters at the low end and is shifted out bit by bit. *)
Definition crc_octet (c x : Z) : Z := Nat.iter 8 crc_bit (Z.lxor c x).

Definition crc_string (data : list Z) (c : Z) : Z := fold_left crc_octet data c.

(** Bit [j] of an octet string in transmission order: octet j/8, least
    significant bit first. *)
Definition message_bit (m : list Z) (j : nat) : bool :=
  Z.testbit (nth (j / 8) m 0) (Z.of_nat (j mod 8)).
