(** Model of diminuto_map.c: the system calls made, with arbitrary answers. *)

From Coq Require Import ZArith List Bool.
From Verif Require Import CInt CUtil.
Import ListNotations.
Local Open Scope Z_scope.

(** The calls: /dev/mem, or the minimum, is opened; size octets of a descriptor from an
    offset on are mapped; octets from an address on are unmapped; fdopen(3) makes a FILE
    of a descriptor, fprintf(3) and fclose(3) are called for it. *)
Inductive call :=
  | Open
  | Mmap (size fd offset : Z)
  | Munmap (address size : Z)
  | Close (fd : Z)
  | Fdopen (fd : Z)
  | Fprintf (fd value : Z)
  | Fclose (fd : Z).

(** What the system answers: a descriptor, an address or zero, or negative; MAP_FAILED,
    a null FILE and EOF are modelled as negative. *)
Definition system := call -> Z.

(** diminuto_map_map(), src/diminuto_map.c:24-69: the result, *startp, *lengthp, and
    the calls. *)
Definition map_ (sys : system) (pagesize start length : Z) : Z * Z * Z * list call :=
  let offset := start mod pagesize in
  let address := s64 (u64 (start - offset)) in
  let size := u64 (length + offset) in
  let fd := sys Open in
  if fd <? 0 then (0, 0, 0, [Open])
  else
    let base := sys (Mmap size fd address) in
    if base <? 0 then (0, 0, 0, [Open; Mmap size fd address; Close fd])
    else (u64 (base + offset), base, size, [Open; Mmap size fd address; Close fd]).

(** diminuto_map_unmap(), src/diminuto_map.c:71-85. *)
Definition unmap (sys : system) (start length : Z) : Z * Z * Z * list call :=
  if length =? 0 then (0, start, length, [])
  else
    let rc := sys (Munmap start length) in
    if rc <? 0 then (rc, start, length, [Munmap start length])
    else (rc, 0, 0, [Munmap start length]).

(** diminuto_map_minimum(), src/diminuto_map.c:87-143; [user] is whether neither the
    user nor the effective user is the superuser. *)
Definition minimum (sys : system) (user : bool) (value : Z) : Z * list call :=
  if user then (-1, [])
  else
    let fd := sys Open in
    if fd <? 0 then (0, [Open])
    else if sys (Fdopen fd) <? 0 then
      ((if sys (Close fd) <? 0 then -5 else -2), [Open; Fdopen fd; Close fd])
    else
      let result := if sys (Fprintf fd value) <? 0 then -3 else 0 in
      if sys (Fclose fd) <? 0 then
        ((if sys (Close fd) <? 0 then -5 else -4), [Open; Fdopen fd; Fprintf fd value; Fclose fd; Close fd])
      else (result, [Open; Fdopen fd; Fprintf fd value; Fclose fd]).
