(** Model of the functions of diminuto_ipc.c, diminuto_ipc4.c, diminuto_ipc6.c and
    diminuto_ipcl.c that make sockets. What they do is the system calls they make; the
    kernel, and the injector function of the caller, answer arbitrarily, an answer
    below zero being -errno. [le] tells the order of octets in memory. *)

From Coq Require Import ZArith List Bool.
From Verif Require Import CInt IpModel.
Import ListNotations.
Local Open Scope Z_scope.

(** A socket address as it is given to the kernel: struct sockaddr_in and
    sockaddr_in6, or the 108 octets of sun_path in struct sockaddr_un. *)
Inductive name := Inet (sa : sockaddr) | Local (sun_path : list Z).

Inductive family := AF_INET | AF_INET6 | AF_UNIX.
Inductive kind := SOCK_STREAM | SOCK_DGRAM | SOCK_SEQPACKET.

(** The calls. [Inject] is the call of the injector; [Device] is setsockopt(2) with
    SO_BINDTODEVICE, with the octets given. *)
Inductive call :=
  | Socket (f : family) (k : kind)
  | Inject (fd : Z)
  | Bind (fd : Z) (n : name)
  | Device (fd : Z) (device : list Z)
  | Listen (fd backlog : Z)
  | Connect (fd : Z) (n : name)
  | Close (fd : Z).

Definition event := (call * Z)%type.
Definition kernel := list event -> call -> Z.

Section sockets.
  Variables (k : kernel) (le : bool) (SOMAXCONN : Z).

  (** Programs: given what happened before, a result and the events. *)
  Definition M (A : Type) := list event -> A * list event.
  Definition ret {A} (a : A) : M A := fun _ => (a, []).
  Definition seq {A B} (m : M A) (f : A -> M B) : M B :=
    fun h => let '(a, e1) := m h in let '(b, e2) := f a (h ++ e1) in (b, e1 ++ e2).
  Notation "'do' x <- m ; n" := (seq m (fun x => n)) (at level 200, x name, m at level 100, n at level 200).

  (** A system call, and the same through the C library: -1 if it fails. *)
  Definition sys (c : call) : M Z := fun h => (k h c, [(c, k h c)]).
  Definition libc (c : call) : M Z := do r <- sys c; ret (if r <? 0 then -1 else r).

  (** diminuto_ipc_close(), src/diminuto_ipc.c:86-94. *)
  Definition close_ (fd : Z) : M Z := do r <- libc (Close fd); ret (if r <? 0 then -2 else fd).

  (** strncpy(3) into an array of [n] octets. *)
  Definition strncpy (n : nat) (s : list Z) : list Z := firstn n (s ++ repeat 0 n).

  (** diminuto_ipc_set_interface(), src/diminuto_ipc.c:191-214; struct ifreq is
      modelled by the 16 octets of ifr_name. *)
  Definition set_interface (fd : Z) (interface : option (list Z)) : M Z :=
    match interface with
    | None => ret fd
    | Some i =>
        do r <- sys (Device fd (match i with [] => [] | _ => firstn 15 (strncpy 16 i) ++ [0] end));
        ret (if 0 <=? r then fd else if r =? -1 then -4 else -5)
    end.

  (** (functionp != 0) && ((rc = ( *functionp)(fd, datap)) < 0), src/diminuto_ipc4.c:317:
      rc remains the descriptor if there is no function. *)
  Definition inject (fd : Z) (functionp : bool) : M Z :=
    if functionp then sys (Inject fd) else ret fd.

  (** diminuto_ipc4_source(), src/diminuto_ipc4.c:288-304. *)
  Definition name4 (address port : Z) : name :=
    Inet (Inet4 (store32 le (if address =? 0 then 0 else htonl le address)) (store16 le (htons le port))).
  Definition source4 (fd address port : Z) : M Z := libc (Bind fd (name4 address port)).

  (** diminuto_ipc6_source(), src/diminuto_ipc6.c:425-446. *)
  Definition name6 (address : ipv6) (port : Z) : name :=
    Inet (Inet6 (if is_unspecified6 le address then repeat 0 16 else mem6 le (hton6 le address)) (store16 le (htons le port))).
  Definition source6 (fd : Z) (address : ipv6) (port : Z) : M Z := libc (Bind fd (name6 address port)).

  (** diminuto_ipcl_source(), src/diminuto_ipcl.c:171-208; [None] is a null path. *)
  Definition sourcel (fd : Z) (path : option (list Z)) : M Z :=
    match path with
    | None => ret (-1)
    | Some [] => ret fd
    | Some p => libc (Bind fd (Local (strncpy 108 p)))
    end.

  (** diminuto_ipc4_stream_provider_base(), src/diminuto_ipc4.c:310-332. *)
  Definition ipc4_stream_provider_base (address port : Z) (interface : option (list Z)) (backlog : Z) (functionp : bool) : M Z :=
    do fd <- libc (Socket AF_INET SOCK_STREAM);
    if fd <? 0 then ret fd else
    do rc <- inject fd functionp;
    if rc <? 0 then (do _ <- close_ fd; ret rc) else
    do rc <- source4 fd address port;
    if rc <? 0 then (do _ <- close_ fd; ret rc) else
    do rc <- set_interface fd interface;
    if rc <? 0 then (do _ <- close_ fd; ret rc) else
    do rc <- libc (Listen fd (if backlog <? 0 then 2147483647 else backlog));
    if rc <? 0 then (do _ <- close_ fd; ret rc) else ret fd.

  (** diminuto_ipc4_stream_consumer_base(), src/diminuto_ipc4.c:351-381. *)
  Definition ipc4_stream_consumer_base (address port address0 port0 : Z) (interface : option (list Z)) (functionp : bool) : M Z :=
    do fd <- libc (Socket AF_INET SOCK_STREAM);
    if fd <? 0 then ret fd else
    do rc <- inject fd functionp;
    if rc <? 0 then (do _ <- close_ fd; ret rc) else
    do rc <- source4 fd address0 port0;
    if rc <? 0 then (do _ <- close_ fd; ret rc) else
    do rc <- set_interface fd interface;
    if rc <? 0 then (do _ <- close_ fd; ret rc) else
    do rc <- libc (Connect fd (Inet (Inet4 (store32 le (htonl le address)) (store16 le (htons le port)))));
    if rc <? 0 then (do _ <- close_ fd; ret rc) else ret fd.

  (** diminuto_ipc4_datagram_peer_base(), src/diminuto_ipc4.c:387-406. *)
  Definition ipc4_datagram_peer_base (address port : Z) (interface : option (list Z)) (functionp : bool) : M Z :=
    do fd <- libc (Socket AF_INET SOCK_DGRAM);
    if fd <? 0 then ret fd else
    do rc <- inject fd functionp;
    if rc <? 0 then (do _ <- close_ fd; ret rc) else
    do rc <- source4 fd address port;
    if rc <? 0 then (do _ <- close_ fd; ret rc) else
    do rc <- set_interface fd interface;
    if rc <? 0 then (do _ <- close_ fd; ret rc) else ret fd.

  (** src/diminuto_ipc6.c:457-463 and src/diminuto_ipcl.c:249-255. *)
  Definition limited (backlog : Z) : Z :=
    if SOMAXCONN <? backlog then SOMAXCONN else if backlog <? 0 then SOMAXCONN else backlog.

  (** diminuto_ipc6_stream_provider_base(), src/diminuto_ipc6.c:452-482. *)
  Definition ipc6_stream_provider_base (address : ipv6) (port : Z) (interface : option (list Z)) (backlog : Z) (functionp : bool) : M Z :=
    let backlog := limited backlog in
    do fd <- libc (Socket AF_INET6 SOCK_STREAM);
    if fd <? 0 then ret fd else
    do rc <- inject fd functionp;
    if rc <? 0 then (do _ <- close_ fd; ret rc) else
    do rc <- source6 fd address port;
    if rc <? 0 then (do _ <- close_ fd; ret rc) else
    do rc <- set_interface fd interface;
    if rc <? 0 then (do _ <- close_ fd; ret rc) else
    do rc <- libc (Listen fd backlog);
    if rc <? 0 then (do _ <- close_ fd; ret rc) else ret fd.

  (** diminuto_ipc6_stream_consumer_base(), src/diminuto_ipc6.c:501-532. *)
  Definition ipc6_stream_consumer_base (address : ipv6) (port : Z) (address0 : ipv6) (port0 : Z) (interface : option (list Z)) (functionp : bool) : M Z :=
    do fd <- libc (Socket AF_INET6 SOCK_STREAM);
    if fd <? 0 then ret fd else
    do rc <- inject fd functionp;
    if rc <? 0 then (do _ <- close_ fd; ret rc) else
    do rc <- source6 fd address0 port0;
    if rc <? 0 then (do _ <- close_ fd; ret rc) else
    do rc <- set_interface fd interface;
    if rc <? 0 then (do _ <- close_ fd; ret rc) else
    do rc <- libc (Connect fd (Inet (Inet6 (mem6 le (hton6 le address)) (store16 le (htons le port)))));
    if rc <? 0 then (do _ <- close_ fd; ret rc) else ret fd.

  (** diminuto_ipc6_datagram_peer_base(), src/diminuto_ipc6.c:538-557. *)
  Definition ipc6_datagram_peer_base (address : ipv6) (port : Z) (interface : option (list Z)) (functionp : bool) : M Z :=
    do fd <- libc (Socket AF_INET6 SOCK_DGRAM);
    if fd <? 0 then ret fd else
    do rc <- inject fd functionp;
    if rc <? 0 then (do _ <- close_ fd; ret rc) else
    do rc <- source6 fd address port;
    if rc <? 0 then (do _ <- close_ fd; ret rc) else
    do rc <- set_interface fd interface;
    if rc <? 0 then (do _ <- close_ fd; ret rc) else ret fd.

  (** diminuto_ipcl_stream_provider_base(), src/diminuto_ipcl.c:244-272, and
      diminuto_ipcl_packet_provider_base(), lines 401-429. *)
  Definition ipcl_provider_base (kd : kind) (path : option (list Z)) (backlog : Z) (functionp : bool) : M Z :=
    let backlog := limited backlog in
    do fd <- libc (Socket AF_UNIX kd);
    if fd <? 0 then ret fd else
    do rc <- inject fd functionp;
    if rc <? 0 then (do _ <- close_ fd; ret rc) else
    do rc <- sourcel fd path;
    if rc <? 0 then (do _ <- close_ fd; ret rc) else
    do rc <- libc (Listen fd backlog);
    if rc <? 0 then (do _ <- close_ fd; ret rc) else ret fd.

  (** diminuto_ipcl_stream_consumer_base(), src/diminuto_ipcl.c:291-318, and
      diminuto_ipcl_packet_consumer_base(), lines 431-458. *)
  Definition ipcl_consumer_base (kd : kind) (path : list Z) (path0 : option (list Z)) (functionp : bool) : M Z :=
    do fd <- libc (Socket AF_UNIX kd);
    if fd <? 0 then ret fd else
    do rc <- inject fd functionp;
    if rc <? 0 then (do _ <- close_ fd; ret rc) else
    do rc <- sourcel fd path0;
    if rc <? 0 then (do _ <- close_ fd; ret rc) else
    do rc <- libc (Connect fd (Local (strncpy 108 path)));
    if rc <? 0 then (do _ <- close_ fd; ret rc) else ret fd.

  (** diminuto_ipcl_datagram_peer_base(), src/diminuto_ipcl.c:324-341. *)
  Definition ipcl_datagram_peer_base (path : option (list Z)) (functionp : bool) : M Z :=
    do fd <- libc (Socket AF_UNIX SOCK_DGRAM);
    if fd <? 0 then ret fd else
    do rc <- inject fd functionp;
    if rc <? 0 then (do _ <- close_ fd; ret rc) else
    do rc <- sourcel fd path;
    if rc <? 0 then (do _ <- close_ fd; ret rc) else ret fd.
End sockets.
