(** Model of diminuto_line.c: general purpose I/O lines by way of the character devices
    of Linux. The kernel answers arbitrarily; calls that open, use or close descriptors
    are listed. Strings are the octets before the NUL. *)

From Coq Require Import ZArith List Bool.
From Verif Require Import CInt CUtil NumberModel.
Import ListNotations.
Local Open Scope Z_scope.

Inductive call :=
  | Open (path : list Z)
  | Request (fd : Z) (offsets : list Z) (flags : Z) (debounce : option (Z * Z)) (consumer : list Z)
  | Close (fd : Z).

Fixpoint same (a b : list Z) : bool :=
  match a, b with
  | [], [] => true
  | x :: a, y :: b => (x =? y) && same a b
  | _, _ => false
  end.
(** strncmp(3) with the length of the prefix. *)
Fixpoint prefixed (prefix s : list Z) : bool :=
  match prefix, s with
  | [], _ => true
  | x :: prefix, y :: s => (x =? y) && prefixed prefix s
  | _, [] => false
  end.

(** * Finding a line by its name *)

(** What a walk comes across: whether it is a character device, the name, the path, what
    open(2) answers, the number of lines unless the ioctl(2) fails, and the names of
    the lines unless that fails. *)
Record node := mknode { chardev : bool; name : list Z; path : list Z; opened : Z; lines : option Z; line : Z -> option (list Z) }.

(** The loop, src/diminuto_line.c:105-129, from line ii on. *)
Fixpoint scan (n : nat) (ii : Z) (line : Z -> option (list Z)) (wanted : list Z) : option Z :=
  match n with
  | O => None
  | S n =>
      match line ii with
      | None => None
      | Some [] => scan n (ii + 1) line wanted
      | Some l => if same l wanted then Some ii else scan n (ii + 1) line wanted
      end
  end.
(** walker(), lines 72-142: where the line is, and the calls. *)
Definition walker (wanted prefix : list Z) (n : node) : option (list Z * Z) * list call :=
  if negb (chardev n) then (None, [])
  else if negb (prefixed prefix (name n)) then (None, [])
  else if opened n <? 0 then (None, [Open (path n)])
  else
    let calls := [Open (path n); Close (opened n)] in
    match lines n with
    | None => (None, calls)
    | Some k =>
        match scan (Z.to_nat k) 0 (line n) wanted with
        | None => (None, calls)
        | Some ii => (Some (firstn 4095 (path n), ii), calls)
        end
    end.
(** The walk ends when a walker does not answer zero. *)
Fixpoint visits (wanted prefix : list Z) (nodes : list node) : option (list Z * Z) * list call :=
  match nodes with
  | [] => (None, [])
  | n :: nodes =>
      match walker wanted prefix n with
      | (Some r, calls) => (Some r, calls)
      | (None, calls) => let '(r, more) := visits wanted prefix nodes in (r, calls ++ more)
      end
  end.
(** diminuto_line_find_generic(), lines 144-179, for a size that is not zero: the string
    in the buffer, and the line. [nodes] is what the walk comes across, in its order. *)
Definition find (wanted prefix : list Z) (nodes : list node) (size : Z) : option (list Z * Z) * list call :=
  match visits wanted prefix nodes with
  | (Some (path, ii), calls) => (Some (firstn (Z.to_nat (size - 1)) path, u32 ii), calls)
  | (None, calls) => (None, calls)
  end.

(** * Parsing *)

(** strrchr(3): what is before the last one, and what is after it. *)
Fixpoint strrchr (c : Z) (s : list Z) : option (list Z * list Z) :=
  match s with
  | [] => None
  | x :: s =>
      match strrchr c s with
      | Some (a, b) => Some (x :: a, b)
      | None => if x =? c then Some ([], s) else None
      end
  end.
(** The sign, lines 228-235 and 271-278. *)
Definition sign (s : list Z) : bool * list Z :=
  match s with
  | c :: t => if c =? 45 then (true, t) else if c =? 43 then (false, t) else (false, s)
  | [] => (false, [])
  end.
(** diminuto_line_parse(), src/diminuto_line.c:189-298: the path, the line and whether it
    is inverted. [canonical] is diminuto_fs_canonicalize() and whether there is such a
    file, [found] is diminuto_line_find(). *)
Definition parse (canonical : list Z -> option (list Z)) (found : list Z -> option (list Z * Z)) (parameter : list Z)
    : option (list Z * Z * bool) :=
  match (if prefixed [47] parameter || prefixed [46; 47] parameter || prefixed [46; 46; 47] parameter
         then strrchr 58 parameter else None) with
  | Some (string, offset) =>
      let '(inverted, offset) := sign offset in
      match offset with
      | [] => None
      | _ =>
          let '(value, rest) := number_unsigned offset in
          match rest with
          | _ :: _ => None
          | [] =>
              if 4294967295 <? value then None
              else
                let* p := canonical string in
                Some (p, value, inverted)
          end
      end
  | None =>
      let '(inverted, string) := sign parameter in
      let* '(p, ii) := found string in
      Some (p, ii, inverted)
  end.

(** * Opening and closing *)

(** The loop, lines 320-325: the offsets stored before it ends. *)
Fixpoint offsets (l : list Z) : list Z :=
  match l with
  | [] => []
  | x :: l => if 64 <=? x then [] else x :: offsets l
  end.
(** The loop, lines 336-338. *)
Fixpoint debounced (n : nat) (ii mask : Z) : Z :=
  match n with
  | O => mask
  | S n => debounced n (ii + 1) (Z.lor mask (u64 (Z.shiftl 1 ii)))
  end.
(** diminuto_line_open_generic(), lines 304-375; [fd] is what open(2) answers and
    [answer] what the ioctl(2) makes of request.fd, unless it fails. Whether close(2)
    works makes no difference. request.offsets has 64 elements. *)
Definition open_generic (fd : Z) (answer : option Z) (consumer path line : list Z) (lines flags useconds : Z) : Z * list call :=
  if negb ((0 <? lines) && (lines <? 64)) then (-1, [])
  else
    let o := offsets line in
    if negb (Z.of_nat (length o) =? lines) then (-1, [])
    else
      let debounce := if 0 <? useconds then Some (debounced (Z.to_nat lines) 0 0, useconds) else None in
      if fd <? 0 then (-1, [Open path])
      else
        let calls := [Open path; Request fd o flags debounce (firstn 31 consumer); Close fd] in
        match answer with
        | None => (-1, calls)
        | Some r => (r, calls)
        end.
(** diminuto_line_close(), lines 377-388. *)
Definition close (ok : bool) (fd : Z) : Z * list call :=
  if fd <? 0 then (fd, [])
  else ((if ok then -1 else fd), [Close fd]).

(** * Values *)

(** diminuto_line_get_generic(), lines 394-420; [ioctl] is given the mask. *)
Definition get_generic (ioctl : Z -> option Z) (mask : Z) : option Z :=
  if mask =? 0 then None else ioctl mask.
(** diminuto_line_get(), lines 422-440. *)
Definition get (ioctl : Z -> option Z) : Z :=
  match get_generic ioctl 1 with
  | None => -1
  | Some bits => if Z.land bits 1 =? 0 then 0 else 1
  end.
(** diminuto_line_put_generic(), lines 446-471, with a kernel in some state: what it
    becomes, unless it fails. *)
Definition put_generic {K} (ioctl : K -> Z -> Z -> option K) (k : K) (mask bits : Z) : option K :=
  if mask =? 0 then None else ioctl k mask bits.
(** diminuto_line_put(), lines 473-493. *)
Definition put {K} (ioctl : K -> Z -> Z -> option K) (k : K) (state : Z) : Z * K :=
  match put_generic ioctl k 1 (if state =? 0 then 0 else 1) with
  | None => (-1, k)
  | Some k => (state, k)
  end.
(** diminuto_line_read(), lines 499-536; [rc] is what the read answers and [id] is that of
    the event; the event has 48 octets. *)
Definition read (rc id : Z) : Z :=
  if rc <? 0 then -1
  else if rc =? 0 then -1
  else if negb (rc =? 48) then -1
  else if id =? 1 then 1
  else if id =? 2 then 0
  else -1.
