(** Specification for the IPv4 and IPv6 address code: addresses as numbers. *)

From Coq Require Import ZArith List Bool.
From Verif Require Import CInt IpModel.
Import ListNotations.
Local Open Scope Z_scope.

(** An IPv6 address: eight 16-bit elements, the first one the most significant. *)
Definition address6 (a : ipv6) : Prop := length a = 8%nat /\ Forall is_u16 a.
Definition number6 (a : ipv6) : Z := fold_left (fun v x => v * 65536 + x) a 0.

(** The number that octets in network order spell. *)
Definition network (l : list Z) : Z := fold_left (fun v o => v * 256 + o) l 0.

(** The network p/len of addresses of [width] bits. *)
Definition in_network (width p len x : Z) : Prop := x / 2 ^ (width - len) = p / 2 ^ (width - len).

(** The well known networks. *)
Definition v4mapped_network (x : Z) : Prop := in_network 128 (65535 * 2 ^ 32) 96 x.       (* ::ffff:0:0/96 *)
Definition v4compatible_network (x : Z) : Prop := in_network 128 0 96 x.                  (* ::/96 *)
Definition nat64_network (x : Z) : Prop :=
  in_network 128 (100 * 2 ^ 112 + 65435 * 2 ^ 96) 96 x.                                   (* 64:ff9b::/96 *)
Definition global_network (x : Z) : Prop := in_network 128 (8192 * 2 ^ 112) 3 x.          (* 2000::/3 *)
Definition sixtofour_network (x : Z) : Prop := in_network 128 (8194 * 2 ^ 112) 16 x.      (* 2002::/16 *)
Definition uniquelocal_network (x : Z) : Prop := in_network 128 (64512 * 2 ^ 112) 7 x.    (* fc00::/7 *)
Definition linklocal_network (x : Z) : Prop := in_network 128 (65152 * 2 ^ 112) 10 x.     (* fe80::/10 *)
Definition multicast6_network (x : Z) : Prop := in_network 128 (65280 * 2 ^ 112) 8 x.     (* ff00::/8 *)

Definition dotted (a b c d : Z) : Z := a * 2 ^ 24 + b * 2 ^ 16 + c * 2 ^ 8 + d.
Definition loopback_network (x : Z) : Prop := in_network 32 (dotted 127 0 0 0) 8 x.       (* 127/8 *)
Definition private_network (x : Z) : Prop :=
  in_network 32 (dotted 10 0 0 0) 8 x \/ in_network 32 (dotted 172 16 0 0) 12 x \/
  in_network 32 (dotted 192 168 0 0) 16 x.
Definition multicast_network (x : Z) : Prop := in_network 32 (dotted 224 0 0 0) 4 x.      (* 224/4 *)

(** A socket address as the system makes it. *)
Definition sockaddr_ok (sa : sockaddr) : Prop :=
  match sa with
  | Inet6 a p => length a = 16%nat /\ length p = 2%nat /\ octets a /\ octets p
  | Inet4 a p => length a = 4%nat /\ length p = 2%nat /\ octets a /\ octets p
  | OtherFamily => True
  end.

(** The number an element of an address list stands for in IPv6: IPv4 addresses
    are mapped. *)
Definition meaning (ai : addrinfo) : option Z :=
  match ai with
  | Some (Inet6 a _) => Some (network a)
  | Some (Inet4 a _) => Some (65535 * 2 ^ 32 + network a)
  | _ => None
  end.

Fixpoint somes {A} (l : list (option A)) : list A :=
  match l with [] => [] | Some x :: l' => x :: somes l' | None :: l' => somes l' end.
