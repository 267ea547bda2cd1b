(** Specification of a dump: a table of addresses. *)

From Coq Require Import ZArith List Bool.
From Verif Require Import CUtil DumpModel.
Import ListNotations.
Local Open Scope Z_scope.

(** Consecutive addresses. *)
Fixpoint range (a : Z) (n : nat) : list Z :=
  match n with O => [] | S n => a :: range (a + 1) n end.

(** The octet at an address, if the data has one there. *)
Definition at_address (data : list Z) (address a : Z) : option Z :=
  if a <? address then None else nth_error data (Z.to_nat (a - address)).

(** How it is shown: in hexadecimal, and as a character. *)
Definition numerals (up : bool) : list Z :=
  [48; 49; 50; 51; 52; 53; 54; 55; 56; 57] ++ (if up then [65; 66; 67; 68; 69; 70] else [97; 98; 99; 100; 101; 102]).
Definition hex_cell (f : format) (data : list Z) (address a : Z) : list Z :=
  match at_address data address a with
  | Some x => [nth (Z.to_nat (x / 16)) (numerals (upper f)) 0; nth (Z.to_nat (x mod 16)) (numerals (upper f)) 0]
  | None => [byteskip f; byteskip f]
  end.
Definition char_cell (f : format) (data : list Z) (address a : Z) : list Z :=
  match at_address data address a with
  | Some x => [if (32 <=? x) && (x <? 127) then x else dot f]
  | None => [charskip f]
  end.

(** The words from an address on. *)
Fixpoint words (f : format) (data : list Z) (address a : Z) (n : nat) : list Z :=
  match n with
  | O => []
  | S n => flat_map (hex_cell f data address) (range a (Z.to_nat (bpw f))) ++ wordsep f ++ words f data address (a + bpw f) n
  end.

(** The line that begins with an address. *)
Definition row (f : format) (data : list Z) (address a : Z) : list Z :=
  repeat 32 (indent f) ++ show f a ++ addrsep f ++ words f data address a (Z.to_nat (wpl f)) ++
  charsep f ++ flat_map (char_cell f data address) (range a (Z.to_nat (bpw f * wpl f))) ++ lineend f.

(** Lines one after the other. *)
Fixpoint table (f : format) (data : list Z) (address a : Z) (n : nat) : list Z :=
  match n with
  | O => []
  | S n => row f data address a ++ table f data address (a + bpw f * wpl f) n
  end.

(** The octets shown at addresses, in order. *)
Definition shown (data : list Z) (address : Z) (addresses : list Z) : list Z :=
  flat_map (fun a => match at_address data address a with Some x => [x] | None => [] end) addresses.
