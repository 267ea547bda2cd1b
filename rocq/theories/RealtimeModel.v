(** Model of src/diminuto_realtime.c: whether the kernel is a realtime kernel. Undefined
    behaviour, which is [None]: a number that is not in the range of an int (C11 7.21.6.2).
    Simplifications: the file can be read entirely, or its first octet already cannot;
    messages, which do not change what is returned, are left out. *)

From Coq Require Import ZArith List Bool.
From Verif Require Import CInt CUtil.
Import ListNotations.
Local Open Scope Z_scope.

(** C library: isspace(3) in the C locale, and isdigit(3). *)
Definition space (c : Z) : bool := (c =? 32) || ((9 <=? c) && (c <=? 13)).
Definition digit (c : Z) : bool := (48 <=? c) && (c <=? 57).

Fixpoint skip (cs : list Z) : list Z :=
  match cs with [] => [] | c :: r => if space c then skip r else cs end.
Fixpoint take (cs : list Z) : list Z :=
  match cs with [] => [] | c :: r => if digit c then c :: take r else [] end.
Definition value (ds : list Z) : Z := fold_left (fun a d => 10 * a + (d - 48)) ds 0.

(** C library: fscanf(3) with "%d". *)
Inductive scanned := Eof | Mismatch | Number (n : Z).
Definition convert (sign : Z) (cs : list Z) : scanned :=
  match take cs with [] => Mismatch | ds => Number (sign * value ds) end.
Definition fscanf (cs : list Z) : scanned :=
  match skip cs with
  | [] => Eof
  | c :: r => if c =? 45 then convert (-1) r else if c =? 43 then convert 1 r else convert 1 (c :: r)
  end.

(** A stream: what is in it, or the error number with which it cannot be read. *)
Inductive stream := Stream (contents : list Z) | Unreadable (e : Z).

(** src/diminuto_realtime.c:21-60 diminuto_realtime_is_supported_fp; [errno] is what errno is
    when it is called. *)
Definition is_supported_fp (errno : Z) (fp : option stream) : option Z :=
  match fp with
  | None => Some (-1)
  | Some (Unreadable e) => if e =? 0 then Some 0 else Some (-1)
  | Some (Stream cs) =>
      match fscanf cs with
      | Number n => if (n <? -2147483648) || (2147483647 <? n) then None else if n <=? 0 then Some 0 else Some 1
      | Mismatch => Some 0
      | Eof => if errno =? 0 then Some 0 else Some (-1)
      end
  end.

(** What fopen(3) does: a stream, with what errno is thereafter; or an error. *)
Inductive opened := Open (s : stream) (errno : Z) | NotOpen (e : Z).
(** src/diminuto_realtime.c:62-102 diminuto_realtime_is_supported_path: what is returned, and
    how many more streams were opened than were closed. [fclose] is whether that works; the
    stream is closed in either case. *)
Definition is_supported_path (path : option (list Z)) (fopen : list Z -> opened) (fclose : bool) : option (Z * Z) :=
  match path with
  | None => Some (-1, 0)
  | Some path =>
      match fopen path with
      | NotOpen e => if e =? 2 then Some (0, 0) else Some (-1, 0)
      | Open s errno =>
          let* result := is_supported_fp errno (Some s) in
          if fclose then Some (result, 1 - 1) else Some (-1, 1 - 1)
      end
  end.
(** src/diminuto_realtime.c:104-106 and src/diminuto_realtime.h: "/sys/kernel/realtime". *)
Definition is_supported := is_supported_path (Some [47; 115; 121; 115; 47; 107; 101; 114; 110; 101; 108; 47; 114; 101; 97; 108; 116; 105; 109; 101]).
