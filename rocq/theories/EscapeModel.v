(** Model of diminuto_escape.c. A char is an octet (0..255): the comparisons in the
    code are with characters below 128, so that the sign of char does not matter.
    The source is the list of the octets of the object from points to; [None] is a
    read beyond it. The destination is written strictly in order, so the list of
    the octets written models it. *)

From Coq Require Import ZArith List Bool.
From Verif Require Import CInt.
Import ListNotations.
Local Open Scope Z_scope.

Definition BACKSLASH : Z := 92.

(** The value of a hexadecimal digit, src/diminuto_escape.c:83-94. *)
Definition hex_digit (c : Z) : option Z :=
  if (48 <=? c) && (c <=? 57) then Some (c - 48)
  else if (97 <=? c) && (c <=? 102) then Some (10 + (c - 97))
  else if (65 <=? c) && (c <=? 70) then Some (10 + (c - 65))
  else None.

(** src/diminuto_escape.c:82-95, the loop over at most [n] more hexadecimal digits:
    what is left of the source, the value, and the number of digits. *)
Fixpoint hex_loop (n : nat) (ff : list Z) (byte : Z) (count : Z) : option (list Z * Z * Z) :=
  match n with
  | O => Some (ff, byte, count)
  | S n =>
      match ff with
      | [] => None
      | c :: rest =>
          match hex_digit c with
          | Some d => hex_loop n rest (u8 (Z.lor (Z.shiftl byte 4) d)) (count + 1)
          | None => Some (ff, byte, count)
          end
      end
  end.

Definition is_octal (c : Z) : bool := (48 <=? c) && (c <=? 55).

(** src/diminuto_escape.c:114-121, the loop over at most [n] octal digits. *)
Fixpoint octal_loop (n : nat) (ff : list Z) (byte : Z) : option (list Z * Z) :=
  match n with
  | O => Some (ff, byte)
  | S n =>
      match ff with
      | [] => None
      | c :: rest =>
          if is_octal c then octal_loop n rest (u8 (Z.lor (Z.shiftl byte 3) (c - 48)))
          else Some (ff, byte)
      end
  end.

(** src/diminuto_escape.c:29-78 and 126-130: the letters. *)
Definition letter (c : Z) : option Z :=
  if c =? BACKSLASH then Some BACKSLASH
  else if c =? 97 then Some 7
  else if c =? 98 then Some 8
  else if c =? 102 then Some 12
  else if c =? 110 then Some 10
  else if c =? 114 then Some 13
  else if c =? 116 then Some 9
  else if c =? 118 then Some 11
  else None.

(** One turn of the loop, src/diminuto_escape.c:28-135: what is left of the source,
    and the octet written if any. [y :: rest] is the source at ff+1. *)
Definition collapse_step (c : Z) (rest : list Z) : option (list Z * list Z) :=
  if c =? BACKSLASH then
    match rest with
    | [] => None
    | y :: rest' =>
        if y =? 0 then Some (rest, [])
        else if (y =? 10) || (y =? 13) then Some (rest', [])
        else match letter y with
        | Some x => Some (rest', [x])
        | None =>
            if y =? 120 then
              match hex_loop 2 rest' 0 0 with
              | None => None
              | Some (rest'', byte, count) =>
                  if 0 <? count then Some (rest'', [byte]) else Some (rest, [c])
              end
            else if is_octal y then
              match octal_loop 3 rest 0 with
              | None => None
              | Some (rest'', byte) => Some (rest'', [byte])
              end
            else Some (rest', [y])
        end
    end
  else Some (rest, [c]).

(** src/diminuto_escape.c:17-144 diminuto_escape_collapse: the octets written; the
    value returned is their number. The fuel is the length of the source object;
    every turn advances in it. *)
Fixpoint collapse_loop (fuel : nat) (ff : list Z) (tsize : Z) : option (list Z) :=
  let finish := if 0 <? tsize then Some [0] else Some [] in
  if 1 <? tsize then
    match ff, fuel with
    | c :: rest, S fuel =>
        if c =? 0 then finish
        else match collapse_step c rest with
             | None => None
             | Some (ff, out) =>
                 option_map (app out) (collapse_loop fuel ff (tsize - Z.of_nat (length out)))
             end
    | _, _ => None
    end
  else finish.
Definition collapse (from : list Z) (tsize : Z) : option (list Z) := collapse_loop (length from) from tsize.

(** src/diminuto_escape.c:146-151 HEX. *)
Definition HEX : list Z := [48; 49; 50; 51; 52; 53; 54; 55; 56; 57; 97; 98; 99; 100; 101; 102].

(** strchr(special, c) != 0: the terminating NUL of special is found too. *)
Definition strchr (special : list Z) (c : Z) : bool := existsb (Z.eqb c) special || (c =? 0).

(** src/diminuto_escape.c:166: special is null, or does not contain the character. *)
Definition not_special (special : option (list Z)) (c : Z) : bool :=
  match special with None => true | Some s => negb (strchr s c) end.

(** src/diminuto_escape.c:164-207: what is written for one octet: the octets and
    the size they need, which is compared with tsize before. *)
Definition expand_octet (special : option (list Z)) (c : Z) : list Z :=
  if not_special special c && (((32 <=? c) && (c <=? 91)) || ((93 <=? c) && (c <=? 126))) then [c]
  else if c =? BACKSLASH then [BACKSLASH; BACKSLASH]
  else if c =? 0 then [BACKSLASH; 48]
  else if c =? 7 then [BACKSLASH; 97]
  else if c =? 8 then [BACKSLASH; 98]
  else if c =? 12 then [BACKSLASH; 102]
  else if c =? 10 then [BACKSLASH; 110]
  else if c =? 13 then [BACKSLASH; 114]
  else if c =? 9 then [BACKSLASH; 116]
  else if c =? 11 then [BACKSLASH; 118]
  else if negb (not_special special c) then [BACKSLASH; c]
  else [BACKSLASH; 120; nth (Z.to_nat (Z.land (Z.shiftr c 4) 15)) HEX 0;
        nth (Z.to_nat (Z.land c 15)) HEX 0].

(** src/diminuto_escape.c:153-219 diminuto_escape_expand: the octets written; the
    value returned is their number. The code compares tsize with 1, 2 and 4 in turn,
    and stops at the first that does not fit: as every test before the one that
    selects the form compares with a smaller size, this is the comparison with the
    size of the form (EscapeProofs.v proves it of the order as written, below). *)
Fixpoint expand_loop (from : list Z) (fsize : nat) (tsize : Z) (special : option (list Z)) {struct fsize} : option (list Z) :=
  let finish := if 0 <? tsize then Some [0] else Some [] in
  match fsize with
  | O => finish
  | S fsize =>
      match from with
      | [] => None
      | c :: from =>
          if tsize <=? 1 then finish
          else let plain := not_special special c && (((32 <=? c) && (c <=? 91)) || ((93 <=? c) && (c <=? 126))) in
          let write :=
            let out := expand_octet special c in
            option_map (app out) (expand_loop from fsize (tsize - Z.of_nat (length out)) special) in
          if plain then write
          else if tsize <=? 2 then finish
          else let short := (c =? BACKSLASH) || (c =? 0) || (c =? 7) || (c =? 8) || (c =? 12) || (c =? 10) || (c =? 13)
                            || (c =? 9) || (c =? 11) || negb (not_special special c) in
          if short then write
          else if tsize <=? 4 then finish
          else write
      end
  end.
Definition expand (from : list Z) (tsize : Z) (fsize : nat) (special : option (list Z)) : option (list Z) :=
  expand_loop from fsize tsize special.

(** src/diminuto_escape.c:221-263 diminuto_escape_trim. [from] is the object, of
    which [fsize] octets at most are looked at. strnlen: *)
Fixpoint strnlen (from : list Z) (n : nat) {struct n} : option nat :=
  match n with
  | O => Some O
  | S n =>
      match from with
      | [] => None
      | c :: from => if c =? 0 then Some O else option_map S (strnlen from n)
      end
  end.

(** src/diminuto_escape.c:230-233: the size without the trailing blanks. *)
Fixpoint trim_loop (from : list Z) (size : nat) : nat :=
  match size with
  | O => O
  | S s => if nth s from 0 =? 32 then trim_loop from s else S s
  end.

(** src/diminuto_escape.c:235-244. *)
Definition trim_size (from : list Z) (fsize : nat) : nat :=
  let size := trim_loop from fsize in
  if Nat.eqb size 0 then size
  else if Nat.eqb fsize size then size
  else if negb (nth (size - 1) from 0 =? BACKSLASH)
          || ((Nat.ltb 1 size) && (nth (size - 2) from 0 =? BACKSLASH)) then size
  else S size.

(** src/diminuto_escape.c:246-262: the octets written (strncpy of size octets that
    has no NUL among them copies them all) and the size returned. *)
Definition trim (from : list Z) (tsize fsize : nat) : option (list Z * nat) :=
  match strnlen from fsize with
  | None => None
  | Some fsize =>
      let size := trim_size from fsize in
      let size := if Nat.ltb tsize size then tsize else size in
      if Nat.eqb tsize 0 then Some ([], size)
      else if Nat.ltb size tsize then Some (firstn size from ++ [0], size)
      else Some (firstn (size - 1) from ++ [0], (size - 1)%nat)
  end.

(** src/diminuto_escape.c:265-277 diminuto_escape_printable, in the C locale, where
    isprint is true of 32 to 126 (the locale is outside of the code). isprint of
    a negative char is undefined: the result [None] also stands for that. *)
Fixpoint printable (from : list Z) : option bool :=
  match from with
  | [] => None
  | c :: from =>
      if c =? 0 then Some true
      else if 128 <=? c then None
      else if (32 <=? c) && (c <=? 126) then printable from
      else Some false
  end.
