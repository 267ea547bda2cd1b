(** Model of bin/dec.c: the number converter, which is also hex, oct, ntohs, htons, ntohl and
    htonl according to the name that it is run by. Strings are the octets before the NUL; the
    arguments are those after the name. The host is little endian. Simplifications: standard
    output never fails; what perror(3) writes to standard error is left out. *)

From Coq Require Import ZArith List Bool.
From Verif Require Import CUtil CInt NumberModel.
Import ListNotations.
Local Open Scope Z_scope.

(** bin/dec.c:42-50 command_t. *)
Inductive command := DEC | OCT | HEX | NTOHS | HTONS | NTOHL | HTONL.

Definition same (a b : list Z) : bool := if list_eq_dec Z.eq_dec a b then true else false.

(** bin/dec.c:65-66: what comes after the last slash, if there is any. *)
Fixpoint basename (path name : list Z) : list Z :=
  match path with
  | [] => name
  | c :: path' => if c =? 47 then basename path' path' else basename path' name
  end.
(** bin/dec.c:68-82. *)
Definition choose (argv0 : list Z) : command :=
  let name := basename argv0 argv0 in
  if same name [104; 101; 120] then HEX
  else if same name [111; 99; 116] then OCT
  else if same name [110; 116; 111; 104; 115] then NTOHS
  else if same name [104; 116; 111; 110; 115] then HTONS
  else if same name [110; 116; 111; 104; 108] then NTOHL
  else if same name [104; 116; 111; 110; 108] then HTONL
  else DEC.

(** printf(3) of an unsigned number without a precision: %llu, %llo and %llx, by base. A
    number of 64 bits has at most that many digits. *)
Definition digit (d : Z) : Z := if d <? 10 then 48 + d else 87 + d.
Fixpoint print (fuel : nat) (base n : Z) (after : list Z) : list Z :=
  match fuel with
  | O => after
  | S fuel => let after := digit (n mod base) :: after in if n / base =? 0 then after else print fuel base (n / base) after
  end.
Definition number (base n : Z) : list Z := print 64 base n [].

(** htons(3) and htonl(3), which are also ntohs(3) and ntohl(3). *)
Definition swap16 (v : Z) : Z := Z.lor (Z.shiftl (Z.land v 255) 8) (Z.land (Z.shiftr v 8) 255).
Definition swap32 (v : Z) : Z :=
  Z.lor (Z.lor (Z.shiftl (Z.land v 255) 24) (Z.shiftl (Z.land v 65280) 8))
        (Z.lor (Z.land (Z.shiftr v 8) 65280) (Z.land (Z.shiftr v 24) 255)).

(** bin/dec.c:106-129: the line that is printed. *)
Definition show (c : command) (value64 : Z) : list Z :=
  match c with
  | OCT => 48 :: number 8 value64 ++ [10]
  | HEX => 48 :: 120 :: number 16 value64 ++ [10]
  | NTOHS => number 10 (swap16 (u16 value64)) ++ [10]
  | HTONS => number 10 (swap16 (u16 value64)) ++ [10]
  | NTOHL => number 10 (swap32 (u32 value64)) ++ [10]
  | HTONL => number 10 (swap32 (u32 value64)) ++ [10]
  | DEC => number 10 value64 ++ [10]
  end.

(** bin/dec.c:100-104 and 106-129: the line for a string; none if it is refused. *)
Definition convert (c : command) (string : list Z) : option (list Z) :=
  let '(value64, next) := number_unsigned string in
  match next with
  | [] => Some (show c value64)
  | x :: _ => if isspace x then Some (show c value64) else None
  end.

(** bin/dec.c:98-145, given all of the strings: what is printed and the exit status. *)
Fixpoint loop (c : command) (strings : list (list Z)) : list Z * Z :=
  match strings with
  | [] => ([], 0)
  | string :: strings' =>
      match convert c string with
      | None => ([], 3)
      | Some line => let '(out, status) := loop c strings' in (line ++ out, status)
      end
  end.

(** fgets(3) into a buffer: at most [room] octets, through a newline; and what is left. *)
Fixpoint fgets (room : nat) (stdin : list Z) : list Z * list Z :=
  match room, stdin with
  | S room, c :: stdin' => if c =? 10 then ([c], stdin') else let '(line, rest) := fgets room stdin' in (c :: line, rest)
  | _, _ => ([], stdin)
  end.
(** The string that there is in the buffer. *)
Fixpoint before_nul (l : list Z) : list Z :=
  match l with
  | [] => []
  | c :: l' => if c =? 0 then [] else c :: before_nul l'
  end.
(** bin/dec.c:55, 87 and 132: the strings from standard input, with a buffer of 64; each
    takes at least one octet, of which there are [fuel]. *)
Fixpoint strings (fuel : nat) (stdin : list Z) : list (list Z) :=
  match fuel, stdin with
  | S fuel, _ :: _ => let '(line, rest) := fgets 63 stdin in before_nul line :: strings fuel rest
  | _, _ => []
  end.

(** bin/dec.c:52-146 main. *)
Definition main (argv0 : list Z) (args : list (list Z)) (stdin : list Z) : list Z * Z :=
  let c := choose argv0 in
  let file := match args with [] => true | [a] => same a [45] | _ => false end in
  let inputs := if file then strings (length stdin) stdin else args in
  match inputs with
  | [] => ([], 2)
  | _ => loop c inputs
  end.
