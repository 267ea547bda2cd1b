(** Model of diminuto_phex.c. A character is an octet; the stream is the list of the
    octets put into it (fputc and fprintf are taken not to fail; fflush at lines 82-84
    changes nothing that is modelled). *)

From Coq Require Import ZArith List Bool.
From Verif Require Import CInt.
Import ListNotations.
Local Open Scope Z_scope.

(** What currentp (a size_t) and endp (an int used as a truth value) point to,
    src/diminuto_phex.c:19. *)
Record state := mkstate { current : Z; ended : bool }.

(** Both start at zero in the callers, bin/phex.c:60-61. *)
Definition start : state := mkstate 0 false.

(** diminuto_phex_limit(), src/diminuto_phex.c:19-36: what it prints and the new
    state. The sum at line 29 is of size_t, so that it wraps around. *)
Definition limit (length increment : Z) (s : state) : list Z * state :=
  if length =? 0 then ([], s)
  else if (increment <? 0) && negb (ended s) then ([10], mkstate (current s) true)
  else if (increment =? 0) && (0 <? current s) && negb (ended s) then ([10], mkstate (current s) true)
  else
    let c := u64 (current s + increment) in
    if length <? c then ([10], mkstate (u64 increment) true)
    else ([], mkstate c false).

(** SPECIAL, src/diminuto_phex.c:17: a b t n v f r. *)
Definition SPECIAL : list Z := [97; 98; 116; 110; 118; 102; 114].

(** A digit of %2.2x. *)
Definition digit (d : Z) : Z := if d <? 10 then d + 48 else d - 10 + 97.

(** fprintf(fp, "\\x%2.2x", ch), src/diminuto_phex.c:42. *)
Definition put_hex (ch : Z) : list Z := [92; 120; digit (Z.shiftr ch 4); digit (Z.land ch 15)].

(** limit, then characters. *)
Definition after (length increment : Z) (s : state) (cs : list Z) : list Z * state :=
  let '(o, s') := limit length increment s in (o ++ cs, s').

(** diminuto_phex_emit(), src/diminuto_phex.c:38-85. *)
Definition emit (length : Z) (nl esc hex : bool) (ch : Z) (s : state) : list Z * state :=
  let quote := (ch =? 34) || (ch =? 39) || (ch =? 63) in
  let control := (7 <=? ch) && (ch <=? 13) in
  if (ch =? 0) && hex then after length 4 s (put_hex ch)
  else if ch =? 0 then after length 2 s [92; 48]
  else if (ch =? 10) && nl then limit length (-1) s
  else if control && hex then after length 4 s (put_hex ch)
  else if control then after length 2 s [92; nth (Z.to_nat (ch - 7)) SPECIAL 0]
  else if (ch =? 92) && hex then after length 4 s (put_hex ch)
  else if ch =? 92 then after length 2 s [92; ch]
  else if quote && esc && hex then after length 4 s (put_hex ch)
  else if quote && esc then after length 2 s [92; ch]
  else if (32 <=? ch) && (ch <=? 126) then after length 1 s [ch]
  else after length 4 s (put_hex ch).

(** A caller's loop over its input, bin/phex.c:130-133: one emit for each octet. *)
Fixpoint emits (length : Z) (nl esc hex : bool) (l : list Z) (s : state) : list Z * state :=
  match l with
  | [] => ([], s)
  | ch :: l =>
      let '(o, s) := emit length nl esc hex ch s in
      let '(o', s) := emits length nl esc hex l s in
      (o ++ o', s)
  end.

(** The program phex without its options and the -t copy, bin/phex.c:130-135. *)
Definition program (length : Z) (nl esc hex : bool) (l : list Z) : list Z :=
  let '(o, s) := emits length nl esc hex l start in
  o ++ fst (limit length 0 s).
