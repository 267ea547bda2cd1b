(** Model of diminuto_ping4.c and diminuto_ping6.c: the Internet checksum and the
    datagrams. [le] is whether the machine is little endian. [None] is undefined
    behaviour. *)

From Coq Require Import ZArith List Bool.
From Verif Require Import CInt CUtil IpModel.
Import ListNotations.
Local Open Scope Z_scope.

(** * The checksum *)

(** The first two loops, src/diminuto_ping4.c:47-58: [size] octets are read. *)
Fixpoint accumulate (le : bool) (here : list Z) (size : nat) (accumulator : Z) : option Z :=
  match size, here with
  | O, _ => Some accumulator
  | S O, a :: _ => Some (u32 (accumulator + load16 le a 0))
  | S (S size), a :: b :: here => accumulate le here size (u32 (accumulator + load16 le a b))
  | _, _ => None
  end.
(** The third loop, lines 60-62; it ends with the fuel it is given. *)
Fixpoint carries (fuel : nat) (accumulator : Z) : option Z :=
  match fuel with
  | O => None
  | S fuel =>
      let word := u16 (Z.shiftr accumulator 16) in
      if word =? 0 then Some accumulator else carries fuel (u32 (Z.land accumulator 65535 + word))
  end.
(** diminuto_inet_checksum(), src/diminuto_ping4.c:39-65. *)
Definition inet_checksum (le : bool) (buffer : list Z) (size : Z) : option Z :=
  if Z.of_nat (length buffer) <? size then None
  else
    let* a := accumulate le buffer (Z.to_nat size) 0 in
    let* a := carries 4 a in
    Some (u16 (Z.lnot a)).

(** * The datagrams *)

(** The octets of a diminuto_ticks_t in memory, and back. *)
Definition store64 (le : bool) (x : Z) : list Z :=
  let l := [x / 2 ^ 56; x / 2 ^ 48 mod 256; x / 2 ^ 40 mod 256; x / 2 ^ 32 mod 256;
            x / 2 ^ 24 mod 256; x / 2 ^ 16 mod 256; x / 2 ^ 8 mod 256; x mod 256] in
  if le then rev l else l.
Definition load64 (le : bool) (l : list Z) : Z :=
  fold_left (fun v o => v * 256 + o) (if le then rev l else l) 0.

(** Assignment to the octets of a buffer. *)
Definition put (at_ : nat) (octets buffer : list Z) : list Z :=
  firstn at_ buffer ++ octets ++ skipn (at_ + length octets) buffer.
Definition get (at_ n : nat) (buffer : list Z) : list Z := firstn n (skipn at_ buffer).
Definition octet (at_ : nat) (buffer : list Z) : Z := nth at_ buffer 0.

(** diminuto_ping4_datagram_send(), src/diminuto_ping4.c:89-123: the octets of the
    address, and the datagram that is sent. icmp_type is at 0, icmp_cksum at 2, icmp_id
    at 4, icmp_seq at 6 and icmp_data at 8; the buffer has 64 octets. *)
Definition ping4_send (le : bool) (now address id seq : Z) : option (list Z * list Z) :=
  let buffer := repeat 0 64 in
  let buffer := put 0 [8] buffer in
  let buffer := put 4 (store16 le id) buffer in
  let buffer := put 6 (store16 le seq) buffer in
  let buffer := put 8 (store64 le now) buffer in
  let* c := inet_checksum le buffer 64 in
  let buffer := put 2 (store16 le c) buffer in
  Some (store32 le (htonl le address), buffer).

(** What is stored through the pointers, if anything. *)
Record reply := mkreply { address : option Z; type : option Z; code : option Z; id : option Z; seq : option Z; ttl : option Z; elapsed : option Z }.
Definition nothing := mkreply None None None None None None None.

(** diminuto_ping4_datagram_receive(), src/diminuto_ping4.c:133-195, all the pointers
    being given. [total] is what recvfrom(2) returns, and the octets it stored are at
    the beginning of the 84 octets of the buffer, the rest of which is zero. *)
Definition ping4_receive (le : bool) (now : Z) (sa : sockaddr) (total : Z) (received : list Z) : option (Z * reply) :=
  if total <=? 0 then Some (total, nothing)
  else
    let buffer := received ++ repeat 0 (84 - length received) in
    let from := snd (fst (identify4 le sa)) in
    if total <? 28 then Some (0, mkreply (Some from) None None None None None None)
    else
      let ihl := Z.to_nat (4 * (octet 0 buffer mod 16)) in
      let icmp := skipn ihl buffer in
      let* c := inet_checksum le icmp (u64 (total - Z.of_nat ihl)) in
      if negb (c =? 0) then Some (0, mkreply (Some from) None None None None None None)
      else
        let type := octet 0 icmp in
        let code := octet 1 icmp in
        if negb (type =? 0) then Some (0, mkreply (Some from) (Some type) (Some code) None None None None)
        else
          let id := field16 le (get 4 2 icmp) in
          let seq := field16 le (get 6 2 icmp) in
          let ttl := octet 8 buffer in
          if total <? 84 then Some (0, mkreply (Some from) (Some type) (Some code) (Some id) (Some seq) (Some ttl) None)
          else
            Some (total - 20, mkreply (Some from) (Some type) (Some code) (Some id) (Some seq) (Some ttl)
                                      (Some (u64 (now - load64 le (get 8 8 icmp))))).

(** diminuto_ping6_datagram_send(), src/diminuto_ping6.c:49-85; the kernel makes the
    checksum. *)
Definition ping6_send (le : bool) (now : Z) (address : ipv6) (id seq : Z) : list Z * list Z :=
  let buffer := repeat 0 64 in
  let buffer := put 0 [128] buffer in
  let buffer := put 4 (store16 le id) buffer in
  let buffer := put 6 (store16 le seq) buffer in
  let buffer := put 8 (store64 le now) buffer in
  (mem6 le (hton6 le address), buffer).

Record reply6 := mkreply6 { address_6 : option ipv6; type_6 : option Z; code_6 : option Z; id_6 : option Z; seq_6 : option Z; elapsed_6 : option Z }.

(** diminuto_ping6_datagram_receive(), src/diminuto_ping6.c:87-137; the buffer has 64
    octets. *)
Definition ping6_receive (le : bool) (now : Z) (sa : sockaddr) (total : Z) (received : list Z) : Z * reply6 :=
  if total <=? 0 then (total, mkreply6 None None None None None None)
  else
    let buffer := received ++ repeat 0 (64 - length received) in
    let from := snd (fst (identify6 le sa)) in
    if total <? 8 then (0, mkreply6 (Some from) None None None None None)
    else
      let type := octet 0 buffer in
      let code := octet 1 buffer in
      if negb (type =? 129) then (0, mkreply6 (Some from) (Some type) (Some code) None None None)
      else
        ((if total <? 64 then 0 else total),
         mkreply6 (Some from) (Some type) (Some code) (Some (field16 le (get 4 2 buffer))) (Some (field16 le (get 6 2 buffer)))
                  (Some (u64 (now - load64 le (get 8 8 buffer))))).
