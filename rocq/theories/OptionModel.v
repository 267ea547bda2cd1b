(** Model of the ports and options of diminuto_ipc.c and diminuto_ipc.h, with the system
    calls made and arbitrary answers. Constants are those of Linux. *)

From Coq Require Import ZArith List Bool.
From Verif Require Import CInt CUtil NumberModel.
Import ListNotations.
Local Open Scope Z_scope.

(** * Ports *)

(** diminuto_ipc_port(), src/diminuto_ipc.c:44-68; [services] is getservbyname(3) for
    the protocol: the octets of s_port, in network order; ntohs(3) is in IpModel and is
    here done on the octets. Strings are the octets before the NUL. *)
Definition ipc_port (services : list Z -> option (Z * Z)) (service : list Z) : Z :=
  let sp := match service with c :: s => if c =? 58 then s else service | [] => service end in
  match services sp with
  | Some (high, low) => high * 256 + low
  | None =>
      let '(temp, rest) := number_unsigned sp in
      match rest with
      | _ :: _ => 0
      | [] => if 65535 <? temp then 0 else u16 temp
      end
  end.

(** "%u" of snprintf(3). *)
Fixpoint utoa (fuel : nat) (n : Z) (tail : list Z) : list Z :=
  match fuel with
  | O => tail
  | S fuel =>
      let tail := (48 + n mod 10) :: tail in
      if n / 10 =? 0 then tail else utoa fuel (n / 10) tail
  end.
(** snprintf(3) into a buffer of a size: as much as fits and a NUL; the rest of the
    buffer is left alone. *)
Definition snprintf (buffer : list Z) (size : Z) (s : list Z) : option (list Z) :=
  if Z.of_nat (length buffer) <? size then None
  else if size =? 0 then Some buffer
  else let w := firstn (Z.to_nat (size - 1)) s ++ [0] in Some (w ++ skipn (length w) buffer).

Fixpoint set_at (n : nat) (x : Z) (l : list Z) : option (list Z) :=
  match n, l with
  | _, [] => None
  | O, _ :: l => Some (x :: l)
  | S n, y :: l => let* r := set_at n x l in Some (y :: r)
  end.

(** diminuto_ipc_port2string(), src/diminuto_ipc.c:70-80: the buffer afterwards. *)
Definition port2string (port : Z) (buffer : list Z) (length : Z) : option (list Z) :=
  if 0 <? length then
    let* b := set_at 0 0 buffer in
    let* b := snprintf b length (utoa 10 port []) in
    set_at (Z.to_nat (length - 1)) 0 b
  else Some buffer.

(** * Options *)

Inductive call :=
  | Setsockopt (fd level option value : Z)
  | Linger (fd onoff seconds : Z)
  | Getfl (fd : Z)
  | Setfl (fd flags : Z).

Definition SOL_SOCKET := 1. Definition SO_SNDBUF := 7. Definition SO_RCVBUF := 8.
Definition SO_REUSEADDR := 2. Definition SO_KEEPALIVE := 9. Definition O_NONBLOCK := 2048.
Definition INT_MAX := 2147483647. Definition TICKS_MAX := 18446744073709551615. Definition FREQUENCY := 1000000000.

(** diminuto_ipc_set_socket(), src/diminuto_ipc.c:146-159; [ok] is whether setsockopt(2)
    works, [eperm] whether errno is EPERM otherwise. *)
Definition set_socket (ok eperm : bool) (fd level option value : Z) : Z * list call :=
  ((if ok then fd else if eperm then -8 else -9), [Setsockopt fd level option value]).

(** diminuto_ipc_set_send(), src/diminuto_ipc.c:216-230, and _receive(), 232-246. *)
Definition set_send (ok eperm : bool) (fd size : Z) : Z * list call :=
  if size <? 0 then (fd, [])
  else if INT_MAX <? size then set_socket ok eperm fd SOL_SOCKET SO_SNDBUF INT_MAX
  else set_socket ok eperm fd SOL_SOCKET SO_SNDBUF (s32 size).
Definition set_receive (ok eperm : bool) (fd size : Z) : Z * list call :=
  if size <? 0 then (fd, [])
  else if INT_MAX <? size then set_socket ok eperm fd SOL_SOCKET SO_RCVBUF INT_MAX
  else set_socket ok eperm fd SOL_SOCKET SO_RCVBUF (s32 size).

(** inc/com/diag/diminuto/diminuto_ipc.h:205-207 and 225-227: !!enable. *)
Definition set_reuseaddress (ok eperm : bool) (fd enable : Z) : Z * list call :=
  set_socket ok eperm fd SOL_SOCKET SO_REUSEADDR (if enable =? 0 then 0 else 1).
Definition set_keepalive (ok eperm : bool) (fd enable : Z) : Z * list call :=
  set_socket ok eperm fd SOL_SOCKET SO_KEEPALIVE (if enable =? 0 then 0 else 1).

(** diminuto_ipc_set_linger(), src/diminuto_ipc.c:248-281. *)
Definition set_linger (ok : bool) (fd ticks : Z) : Z * list call :=
  let '(onoff, linger) :=
    if ticks =? 0 then (0, 0)
    else if ticks <=? TICKS_MAX - FREQUENCY then
      let t := u64 (ticks + FREQUENCY) in
      let t := u64 (t - 1) in
      let t := t / FREQUENCY in
      (1, if t <=? INT_MAX then s32 t else INT_MAX)
    else (1, INT_MAX) in
  ((if ok then fd else -10), [Linger fd onoff linger]).

(** diminuto_ipc_set_status(), src/diminuto_ipc.c:129-144; [flags] is what fcntl(2)
    answers, -1 if it fails, and [ok] whether it then sets them. *)
Definition set_status (flags : Z) (ok : bool) (fd enable mask : Z) : Z * list call :=
  if flags =? -1 then (-6, [Getfl fd])
  else
    let f := if enable =? 0 then Z.land flags (Z.lnot mask) else Z.lor flags mask in
    ((if ok then fd else -7), [Getfl fd; Setfl fd f]).
(** inc/com/diag/diminuto/diminuto_ipc.h:195-197. *)
Definition set_nonblocking (flags : Z) (ok : bool) (fd enable : Z) : Z * list call :=
  set_status flags ok fd enable O_NONBLOCK.
