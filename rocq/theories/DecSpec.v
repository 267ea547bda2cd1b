(** What it is to convert numbers from one notation to another. *)

From Coq Require Import ZArith List Bool.
From Verif Require Import CUtil NumberSpec.
Import ListNotations.
Local Open Scope Z_scope.

(** The names of the programs. *)
Definition n_dec : list Z := [100; 101; 99].
Definition n_hex : list Z := [104; 101; 120].
Definition n_oct : list Z := [111; 99; 116].
Definition n_ntohs : list Z := [110; 116; 111; 104; 115].
Definition n_htons : list Z := [104; 116; 111; 110; 115].
Definition n_ntohl : list Z := [110; 116; 111; 104; 108].
Definition n_htonl : list Z := [104; 116; 111; 110; 108].
(** The program may be run by any path to it. *)
Definition path_to (name path : list Z) : Prop := path = name \/ exists directory, path = directory ++ 47 :: name.

(** The numbers of a given number of octets, the least significant first. *)
Fixpoint octets_of (width : nat) (n : Z) : list Z :=
  match width with
  | O => []
  | S width => n mod 256 :: octets_of width (n / 256)
  end.
(** The same octets, the most significant first, as a number. *)
Fixpoint assemble (l : list Z) (n : Z) : Z :=
  match l with
  | [] => n
  | o :: l' => assemble l' (n * 256 + o)
  end.
Definition reversed (width : nat) (n : Z) : Z := assemble (octets_of width n) 0.

(** What each of the programs prints for a number of 64 bits. *)
Definition answers (name : list Z) (n : Z) (line : list Z) : Prop :=
  (name = n_dec /\ line = dec n ++ [10]) \/
  (name = n_hex /\ line = hex n ++ [10]) \/
  (name = n_oct /\ line = (if n =? 0 then [48; 48] else oct n) ++ [10]) \/
  (In name [n_ntohs; n_htons] /\ line = dec (reversed 2 (n mod 2 ^ 16)) ++ [10]) \/
  (In name [n_ntohl; n_htonl] /\ line = dec (reversed 4 (n mod 2 ^ 32)) ++ [10]).

(** The number of 64 bits that a string is for: it is a numeral, and nothing or white space
    is next. *)
Definition stands_for (s : list Z) (v : Z) : Prop :=
  exists b r n, s = b ++ r /\ numeral b n /\ (r = [] \/ In (hd 0 r) [32; 9; 10; 11; 12; 13]) /\
    v = (if Z.abs n <? 2 ^ 64 then n mod 2 ^ 64 else 2 ^ 64 - 1).
(** A string that some number starts. *)
Definition started (s : list Z) : Prop := exists b r n, s = b ++ r /\ numeral b n.
(** A string that is for no number; and either a number starts it or it is not empty and does
    not start with white space. *)
Definition nonsense (s : list Z) : Prop :=
  (forall v, ~ stands_for s v) /\ (started s \/ (s <> [] /\ ~ In (hd 0 s) [32; 9; 10; 11; 12; 13])).
(** The arguments are the numbers, and not the request to read standard input. *)
Definition given (args : list (list Z)) : Prop := args <> [] /\ args <> [[45]].
(** A line of a file. *)
Definition is_line (l : list Z) : Prop := exists s, l = s ++ [10] /\ ~ In 10 s /\ ~ In 0 s /\ (length s <= 62)%nat.
