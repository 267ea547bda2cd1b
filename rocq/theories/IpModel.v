(** Model of the IPv4 and IPv6 address code: diminuto_ipc4.[ch],
    diminuto_ipc6.[ch] and the private src/diminuto_ipc6.h.

    A C object is modelled by its octets in memory where the code accesses it as
    octets (memcpy, memcmp), and by its value where the code uses its value. The
    parameter [le] says whether the machine is little endian. *)

From Coq Require Import ZArith List Bool.
From Verif Require Import CInt.
Import ListNotations.
Local Open Scope Z_scope.

(** The octets of a uint16_t and of a uint32_t in memory, and back. *)
Definition store16 (le : bool) (x : Z) : list Z :=
  if le then [x mod 256; x / 256] else [x / 256; x mod 256].
Definition load16 (le : bool) (a b : Z) : Z := if le then a + 256 * b else b + 256 * a.
Definition store32 (le : bool) (x : Z) : list Z :=
  let l := [x / 16777216; x / 65536 mod 256; x / 256 mod 256; x mod 256] in if le then rev l else l.
Definition load32 (le : bool) (l : list Z) : Z :=
  fold_left (fun v o => v * 256 + o) (if le then rev l else l) 0.

(** htons(3), ntohs(3), htonl(3), ntohl(3): exchange the octets on a little
    endian machine, and leave the value alone on a big endian one. *)
Definition swap16 (x : Z) : Z := x mod 256 * 256 + x / 256.
Definition swap32 (x : Z) : Z :=
  x mod 256 * 16777216 + x / 256 mod 256 * 65536 + x / 65536 mod 256 * 256 + x / 16777216.
Definition htons (le : bool) (x : Z) : Z := if le then swap16 x else x.
Definition ntohs (le : bool) (x : Z) : Z := if le then swap16 x else x.
Definition htonl (le : bool) (x : Z) : Z := if le then swap32 x else x.
Definition ntohl (le : bool) (x : Z) : Z := if le then swap32 x else x.

(** diminuto_types.h:70-96: an IPv4 address is a uint32_t; an IPv6 address is an
    array of eight uint16_t, modelled by the list of its eight values. *)
Definition ipv6 := list Z.

(** An IPv6 address object seen as octets, and octets seen as such an object. *)
Definition mem6 (le : bool) (a : ipv6) : list Z := flat_map (store16 le) a.
Fixpoint load6 (le : bool) (l : list Z) : ipv6 :=
  match l with a :: b :: l' => load16 le a b :: load6 le l' | _ => [] end.

(** diminuto_ipc6.h:60-98: the constants. *)
Definition UNSPECIFIED6 : ipv6 := [0; 0; 0; 0; 0; 0; 0; 0].
Definition LOOPBACK6 : ipv6 := [0; 0; 0; 0; 0; 0; 0; 1].
Definition LOOPBACK4 : ipv6 := [0; 0; 0; 0; 0; 65535; 127 * 256 + 0; 0 * 256 + 1].

(** memcmp(3): the sign of the first difference. *)
Fixpoint memcmp (a b : list Z) : Z :=
  match a, b with
  | x :: a', y :: b' => if x =? y then memcmp a' b' else if x <? y then -1 else 1
  | _, _ => 0
  end.

(** diminuto_ipc6.c:38-54 and src/diminuto_ipc6.h:34-55: conversion between host
    and network byte order in place. The generic functions are called only on a
    little endian machine. *)
Definition ntoh6 (le : bool) (a : ipv6) : ipv6 := if le then map (ntohs le) a else a.
Definition hton6 (le : bool) (a : ipv6) : ipv6 := if le then map (htons le) a else a.

(** diminuto_ipc6.h:110-112 diminuto_ipc6_compare. *)
Definition compare6 (le : bool) (a b : ipv6) : Z := memcmp (mem6 le a) (mem6 le b).

(** diminuto_ipc6.h:124-166: the classifiers that compare memory. *)
Definition is_unspecified6 (le : bool) (a : ipv6) : bool := compare6 le a UNSPECIFIED6 =? 0.
Definition is_loopback6 (le : bool) (a : ipv6) : bool := compare6 le a LOOPBACK6 =? 0.
Definition is_loopback4 (le : bool) (a : ipv6) : bool := compare6 le a LOOPBACK4 =? 0.
Definition is_v4mapped (le : bool) (a : ipv6) : bool :=
  memcmp (firstn (16 - 4) (mem6 le a)) (firstn (16 - 4) (mem6 le LOOPBACK4)) =? 0.
Definition is_v4compatible (le : bool) (a : ipv6) : bool :=
  memcmp (firstn (16 - 4) (mem6 le a)) (firstn (16 - 4) (mem6 le UNSPECIFIED6)) =? 0.

(** The n-th element of the array. *)
Definition at16 (a : ipv6) (n : nat) : Z := nth n a 0.

(** diminuto_ipc6.h:174-236: the classifiers that look at the elements. *)
Definition is_nat64wkp (a : ipv6) : bool :=
  (at16 a 0 =? 100) && (at16 a 1 =? 65435) && (at16 a 2 =? 0) && (at16 a 3 =? 0) &&
  (at16 a 4 =? 0) && (at16 a 5 =? 0).
Definition is_unicastglobal (a : ipv6) : bool := (8192 <=? at16 a 0) && (at16 a 0 <=? 16383).
Definition is_isatap (a : ipv6) : bool :=
  is_unicastglobal a && (at16 a 4 =? 0) && (at16 a 5 =? 24318).
Definition is_6to4 (a : ipv6) : bool := at16 a 0 =? 8194.
Definition is_uniquelocal (a : ipv6) : bool := (64512 <=? at16 a 0) && (at16 a 0 <=? 65023).
Definition is_linklocal (a : ipv6) : bool := (65152 <=? at16 a 0) && (at16 a 0 <=? 65215).
Definition is_multicast6 (a : ipv6) : bool := (65280 <=? at16 a 0) && (at16 a 0 <=? 65535).

(** diminuto_ipc6.c:60-71 diminuto_ipc6_ipv6toipv4. [None]: the result is false
    and the IPv4 variable is not written. *)
Definition ipv6toipv4 (le : bool) (a : ipv6) : option Z :=
  if is_v4mapped le a then
    Some (ntohl le (load32 le (firstn 4 (skipn 12 (mem6 le (hton6 le a))))))
  else None.

(** Assignment to one element of the array. *)
Fixpoint set16 (a : ipv6) (n : nat) (x : Z) : ipv6 :=
  match a, n with
  | [], _ => []
  | _ :: a', O => x :: a'
  | y :: a', S n' => y :: set16 a' n' x
  end.

(** diminuto_ipc6.c:73-80 diminuto_ipc6_ipv4toipv6. *)
Definition ipv4toipv6 (le : bool) (v : Z) : ipv6 :=
  let memory := firstn (16 - 4) (mem6 le LOOPBACK4) ++ store32 le (htonl le v) in
  let a := load6 le memory in
  let a := set16 a 6 (ntohs le (at16 a 6)) in
  set16 a 7 (ntohs le (at16 a 7)).

(** A socket address: the octets of the address and of the port as they are in
    the structure, that is in network order. *)
Inductive sockaddr :=
  | Inet6 (address : list Z) (port : list Z)
  | Inet4 (address : list Z) (port : list Z)
  | OtherFamily.

(** The value of a uint16_t field that occupies the given octets. *)
Definition field16 (le : bool) (l : list Z) : Z := load16 le (nth 0 l 0) (nth 1 l 0).

(** diminuto_ipc6.c:91-121 diminuto_ipc6_identify (both pointers given): the
    return code, the address and the port. *)
Definition identify6 (le : bool) (sa : sockaddr) : Z * ipv6 * Z :=
  match sa with
  | Inet6 address port => (0, ntoh6 le (load6 le address), ntohs le (field16 le port))
  | Inet4 address port => (0, ipv4toipv6 le (ntohl le (load32 le address)), ntohs le (field16 le port))
  | OtherFamily => (-1, UNSPECIFIED6, 0)
  end.

(** diminuto_ipc4.c:43-65 diminuto_ipc4_identify. *)
Definition identify4 (le : bool) (sa : sockaddr) : Z * Z * Z :=
  match sa with
  | Inet4 address port => (0, ntohl le (load32 le address), ntohs le (field16 le port))
  | _ => (-1, 0, 0)
  end.

(** The strings of diminuto_ipc6_address2type. *)
Inductive type6 :=
  | Loopback | GlobalUnicast | UniqueLocal | LinkLocal | Multicast | Nat64Wkp | Atap | SixToFour
  | V4Loopback | V4Mapped | V4Compatible | Public.

(** diminuto_ipc6.c:286-317 diminuto_ipc6_address2type. *)
Definition address2type6 (le : bool) (a : ipv6) : type6 :=
  if is_loopback6 le a then Loopback
  else if is_unicastglobal a then GlobalUnicast
  else if is_uniquelocal a then UniqueLocal
  else if is_linklocal a then LinkLocal
  else if is_multicast6 a then Multicast
  else if is_nat64wkp a then Nat64Wkp
  else if is_isatap a then Atap
  else if is_6to4 a then SixToFour
  else if is_loopback4 le a then V4Loopback
  else if is_v4mapped le a then V4Mapped
  else if is_v4compatible le a then V4Compatible
  else Public.

(** diminuto_ipc4.h:80-82 diminuto_ipc4_compare. *)
Definition compare4 (a b : Z) : Z := if a <? b then -1 else if b <? a then 1 else 0.

(** diminuto_ipc4.h:93-133: the IPv4 classifiers. *)
Definition is_unspecified (v : Z) : bool := v =? 0.
Definition is_limitedbroadcast (v : Z) : bool := v =? 4294967295.
Definition is_loopback (v : Z) : bool := (2130706433 <=? v) && (v <=? 2147483647).
Definition is_private (v : Z) : bool :=
  ((3232235520 <=? v) && (v <=? 3232301055)) || ((2886729728 <=? v) && (v <=? 2887778303)) ||
  ((167772160 <=? v) && (v <=? 184549375)).
Definition is_multicast (v : Z) : bool := (3758096384 <=? v) && (v <=? 4026531839).

(** The strings of diminuto_ipc4_address2type. *)
Inductive type4 := LimitedBroadcast4 | Loopback_4 | Private4 | Multicast4 | Public4.

(** diminuto_ipc4.c:169-186 diminuto_ipc4_address2type. *)
Definition address2type4 (v : Z) : type4 :=
  if is_limitedbroadcast v then LimitedBroadcast4
  else if is_loopback v then Loopback_4
  else if is_private v then Private4
  else if is_multicast v then Multicast4
  else Public4.

(** An element of the list getaddrinfo(3) returns: its ai_addr, if not null. *)
Definition addrinfo := option sockaddr.

Fixpoint eqlist (a b : list Z) : bool :=
  match a, b with
  | [], [] => true
  | x :: a', y :: b' => (x =? y) && eqlist a' b'
  | _, _ => false
  end.

(** diminuto_ipc6.c:194-217 redundant. *)
Definition redundant (prev : option addrinfo) (next : addrinfo) : bool :=
  match next with
  | None => true
  | Some OtherFamily => true
  | Some sa =>
    match prev with
    | None => false
    | Some None => false
    | Some (Some sb) =>
      match sa, sb with
      | Inet6 a _, Inet6 b _ => eqlist a b
      | Inet4 a _, Inet4 b _ => eqlist a b
      | _, _ => false
      end
    end
  end.

(** diminuto_ipc6.c:228-233: the first pass of diminuto_ipc6_addresses counts. *)
Fixpoint count_addresses (prev : option addrinfo) (l : list addrinfo) : nat :=
  match l with
  | [] => O
  | ai :: l' =>
    if redundant prev ai then count_addresses (Some ai) l' else S (count_addresses (Some ai) l')
  end.

(** Writing to an array of [room] elements: [None] is a write past its end. *)
Definition put6 (room : nat) (written : list ipv6) (x : ipv6) : option (list ipv6) :=
  if (length written <? room)%nat then Some (written ++ [x]) else None.

(** diminuto_ipc6.c:235-242: the second pass writes, and terminates the array. *)
Fixpoint fill_addresses (le : bool) (room : nat) (written : list ipv6) (prev : option addrinfo)
    (l : list addrinfo) : option (list ipv6) :=
  match l with
  | [] => put6 room written UNSPECIFIED6
  | ai :: l' =>
    if redundant prev ai then fill_addresses le room written (Some ai) l'
    else match ai with
         | None => None
         | Some sa =>
           match put6 room written (snd (fst (identify6 le sa))) with
           | None => None
           | Some written' => fill_addresses le room written' (Some ai) l'
           end
         end
  end.

(** diminuto_ipc6.c:219-247 diminuto_ipc6_addresses, of what resolve returned (not
    empty). malloc is taken to succeed: the code does not check it. *)
Definition addresses6 (le : bool) (l : list addrinfo) : option (list ipv6) :=
  fill_addresses le (count_addresses None l + 1) [] None l.
