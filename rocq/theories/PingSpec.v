(** Specification for the Internet checksum (RFC 1071) and echo requests (RFC 792, RFC
    4443). *)

From Coq Require Import ZArith List Bool.
From Verif Require Import CInt.
Import ListNotations.
Local Open Scope Z_scope.

(** The sum of the 16-bit words of data in network order, an odd octet being the high
    half of a word. *)
Fixpoint words (l : list Z) : Z :=
  match l with
  | a :: b :: l => a * 256 + b + words l
  | [a] => a * 256
  | [] => 0
  end.

(** The checksum of RFC 1071: the one's complement of the one's complement sum. A sum in
    one's complement is taken modulo 65535, and is all ones rather than zero unless all
    that is added is zero. *)
Definition rfc1071 (l : list Z) : Z := if words l =? 0 then 65535 else 65534 - (words l - 1) mod 65535.

(** Two octets in network order. *)
Definition wire (x : Z) : list Z := [x / 256; x mod 256].

(** A datagram with a correct checksum, as a receiver tests it. *)
Definition correct (l : list Z) : Prop := words l mod 65535 = 0 /\ words l <> 0.

(** Two lists of the same length that differ in just one octet. *)
Definition differ_once (a b : list Z) : Prop := exists p x y s, x <> y /\ a = p ++ x :: s /\ b = p ++ y :: s.

(** An echo request, its type being 8 for IPv4 and 128 for IPv6: type, code, checksum,
    and the rest. *)
Definition echo (type : Z) (d : list Z) (rest : list Z) : Prop :=
  exists c0 c1, d = type :: 0 :: c0 :: c1 :: rest.

(** The header of an IPv4 packet without options: 20 octets, the first of them 0x45. *)
Definition header4 (h : list Z) (ttl : Z) : Prop := length h = 20%nat /\ octets h /\ nth 0 h 0 = 0x45 /\ nth 8 h 0 = ttl.

(** What an honest kernel stores: no more than there is room for, the length of the
    header being no less than 20 octets and no more than there are. *)
Definition honest4 (total : Z) (received : list Z) : Prop :=
  total <= 84 /\ (0 < total -> Z.of_nat (length received) = total) /\ octets received /\
  (20 <= total -> 20 <= 4 * (nth 0 received 0 mod 16) <= total).
