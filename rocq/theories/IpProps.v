(** Properties C40 and C50. *)

From Coq Require Import ZArith List Bool Lia.
From Verif Require Import CInt IpModel IpSpec IpProofs.
Import ListNotations.
Local Open Scope Z_scope.

(** On every machine, mapping an IPv4 address gives the IPv6 address
    ::ffff:a.b.c.d, and converting that gives the IPv4 address back. *)
Theorem C40_map : forall le v, is_u32 v ->
  address6 (ipv4toipv6 le v) /\ number6 (ipv4toipv6 le v) = 65535 * 2 ^ 32 + v /\
  ipv6toipv4 le (ipv4toipv6 le v) = Some v.
Proof.
  intros le v U. rewrite (ipv4toipv6_eq le v U).
  assert (A : address6 [0; 0; 0; 0; 0; 65535; v / 65536; v mod 65536]).
  { split; [reflexivity|]. unfold is_u32 in U. repeat constructor; unfold is_u16; try lia; zdiv. }
  assert (N : number6 [0; 0; 0; 0; 0; 65535; v / 65536; v mod 65536] = 65535 * 2 ^ 32 + v).
  { rewrite number6_8. pose proof (Z.div_mod v 65536). lia. }
  split; [exact A|]. split; [exact N|]. rewrite (ipv6toipv4_eq le _ A).
  - rewrite N. f_equal. unfold is_u32 in U. symmetry. apply (Z.mod_unique _ _ 65535); lia.
  - apply (is_v4mapped_spec le _ A). rewrite N. unfold v4mapped_network, in_network, is_u32 in *.
    change (128 - 96) with 32. rewrite Z.div_mul by lia. symmetry. apply (Z.div_unique _ _ _ v); lia.
Qed.
Print Assumptions C40_map.

(** An IPv6 address converts to IPv4 exactly when it is in ::ffff:0:0/96; the
    result is its low 32 bits, and mapping that gives the IPv6 address back. *)
Theorem C40_unmap : forall le a, address6 a ->
  (v4mapped_network (number6 a) ->
     ipv6toipv4 le a = Some (number6 a mod 2 ^ 32) /\ ipv4toipv6 le (number6 a mod 2 ^ 32) = a) /\
  (~ v4mapped_network (number6 a) -> ipv6toipv4 le a = None).
Proof.
  intros le a A. split; intros M.
  - split; [apply ipv6toipv4_eq; [exact A|apply is_v4mapped_spec; assumption]|].
    assert (U : is_u32 (number6 a mod 2 ^ 32)) by (unfold is_u32; apply Z.mod_pos_bound; lia).
    destruct (C40_map le _ U) as (B & N & _). apply number6_inj; try assumption. rewrite N.
    unfold v4mapped_network, in_network in M. change (128 - 96) with 32 in M. rewrite Z.div_mul in M by lia.
    pose proof (Z.div_mod (number6 a) (2 ^ 32)). lia.
  - unfold ipv6toipv4. destruct (is_v4mapped le a) eqn:E; [|reflexivity].
    apply (is_v4mapped_spec le a A) in E. contradiction.
Qed.
Print Assumptions C40_unmap.

Example C40_example :
  is_u32 (dotted 192 168 1 2) /\
  (forall le, ipv4toipv6 le (dotted 192 168 1 2) = [0; 0; 0; 0; 0; 65535; 49320; 258]) /\
  address6 [8193; 3512; 0; 0; 0; 0; 0; 1] /\ ~ v4mapped_network (number6 [8193; 3512; 0; 0; 0; 0; 0; 1]) /\
  v4mapped_network (number6 [0; 0; 0; 0; 0; 65535; 49320; 258]).
Proof.
  split; [vm_compute; split; congruence|]. split; [intros []; vm_compute; reflexivity|].
  split; [split; [reflexivity|repeat constructor; unfold is_u16; lia]|].
  split; [vm_compute; discriminate|vm_compute; reflexivity].
Qed.

(** Converting to network order and back, or from it and back, is the identity,
    and a converted address has in memory the octets of the address, most
    significant first. *)
Theorem C40_byte_order : forall le a, address6 a ->
  ntoh6 le (hton6 le a) = a /\ hton6 le (ntoh6 le a) = a /\ network (mem6 le (hton6 le a)) = number6 a /\
  length (mem6 le (hton6 le a)) = 16%nat.
Proof.
  intros le a (L & F). split; [apply ntoh_hton, F|]. split; [apply hton_ntoh, F|]. split; [apply mem6_hton, F|].
  rewrite mem6_len. destruct (hton_address le a (conj L F)) as (L1 & _). rewrite L1. reflexivity.
Qed.
Print Assumptions C40_byte_order.

(** The address and port of a socket: the numbers its octets spell in network
    order, IPv4 addresses being mapped; other families are refused. *)
Theorem C40_identify : forall le sa, sockaddr_ok sa ->
  match sa with
  | Inet6 a p => exists x, identify6 le sa = (0, x, network p) /\ address6 x /\ number6 x = network a /\
      identify4 le sa = (-1, 0, 0)
  | Inet4 a p => exists x, identify6 le sa = (0, x, network p) /\ address6 x /\
      number6 x = 65535 * 2 ^ 32 + network a /\ ipv6toipv4 le x = Some (network a) /\
      identify4 le sa = (0, network a, network p)
  | OtherFamily => identify6 le sa = (-1, UNSPECIFIED6, 0) /\ identify4 le sa = (-1, 0, 0)
  end.
Proof.
  intros le [a p|a p|] W; [| |split; reflexivity]; destruct W as (L & Lp & F & Fp).
  - eexists. cbn [identify6]. rewrite (field16_network le p Lp Fp). split; [reflexivity|].
    destruct (load6_ntoh le a 8 L F) as (X & Y & Z). split; [split; assumption|]. split; [exact Z|reflexivity].
  - eexists. cbn [identify6 identify4]. rewrite (field16_network le p Lp Fp), (load32_network le a L F).
    split; [reflexivity|]. destruct (C40_map le _ (network_range4 a L F)) as (X & Y & Z). auto.
Qed.
Print Assumptions C40_identify.

Example C40_identify_example : forall le,
  sockaddr_ok (Inet4 [127; 0; 0; 1] [31; 144]) /\
  identify6 le (Inet4 [127; 0; 0; 1] [31; 144]) = (0, LOOPBACK4, 8080) /\
  identify4 le (Inet4 [127; 0; 0; 1] [31; 144]) = (0, dotted 127 0 0 1, 8080).
Proof.
  intros le. split; [repeat split; repeat constructor; unfold is_u8; lia|].
  destruct le; vm_compute; split; reflexivity.
Qed.

(** Each classifier recognises exactly the network it is named after. *)
Theorem C50_classifiers : forall le a, address6 a ->
  (is_unspecified6 le a = true <-> number6 a = 0) /\
  (is_loopback6 le a = true <-> number6 a = 1) /\
  (is_loopback4 le a = true <-> number6 a = 65535 * 2 ^ 32 + dotted 127 0 0 1) /\
  (is_v4mapped le a = true <-> v4mapped_network (number6 a)) /\
  (is_v4compatible le a = true <-> v4compatible_network (number6 a)) /\
  (is_nat64wkp a = true <-> nat64_network (number6 a)) /\
  (is_unicastglobal a = true <-> global_network (number6 a)) /\
  (is_6to4 a = true <-> sixtofour_network (number6 a)) /\
  (is_uniquelocal a = true <-> uniquelocal_network (number6 a)) /\
  (is_linklocal a = true <-> linklocal_network (number6 a)) /\
  (is_multicast6 a = true <-> multicast6_network (number6 a)) /\
  (is_isatap a = true <-> global_network (number6 a) /\ number6 a / 2 ^ 32 mod 2 ^ 32 = 24318).
Proof.
  intros le a A.
  split; [exact (compare6_number le a _ A addr_unspec)|]. split; [exact (compare6_number le a _ A addr_loop6)|].
  split; [exact (compare6_number le a _ A addr_loop4)|].
  split; [exact (is_v4mapped_spec le a A)|]. split; [exact (is_v4compatible_spec le a A)|].
  split; [exact (is_nat64wkp_spec a A)|]. split; [exact (is_unicastglobal_spec a A)|].
  split; [exact (is_6to4_spec a A)|]. split; [exact (is_uniquelocal_spec a A)|].
  split; [exact (is_linklocal_spec a A)|]. split; [exact (is_multicast6_spec a A)|].
  unfold is_isatap. rewrite !andb_true_iff, (is_unicastglobal_spec a A), !Z.eqb_eq, and_assoc.
  apply and_iff_compat_l. open6 A. unfold at16. cbn [nth]. rewrite number6_8.
  assert (E : (a0 * 2^112 + a1 * 2^96 + a2 * 2^80 + a3 * 2^64 + a4 * 2^48 + a5 * 2^32 + a6 * 2^16 + a7) / 2 ^ 32 =
    a0 * 2 ^ 80 + a1 * 2 ^ 64 + a2 * 2 ^ 48 + a3 * 2 ^ 32 + a4 * 2 ^ 16 + a5)
    by (symmetry; apply (Z.div_unique _ _ _ (a6 * 2 ^ 16 + a7)); lia).
  assert (E2 : (a0 * 2 ^ 80 + a1 * 2 ^ 64 + a2 * 2 ^ 48 + a3 * 2 ^ 32 + a4 * 2 ^ 16 + a5) mod 2 ^ 32 = a4 * 2 ^ 16 + a5)
    by (symmetry; apply (Z.mod_unique _ _ (a0 * 2 ^ 48 + a1 * 2 ^ 32 + a2 * 2 ^ 16 + a3)); lia).
  rewrite E, E2. lia.
Qed.
Print Assumptions C50_classifiers.

(** The IPv4 ones too; the loopback classifier leaves out 127.0.0.0. *)
Theorem C50_classifiers4 : forall v, is_u32 v ->
  (is_unspecified v = true <-> v = dotted 0 0 0 0) /\
  (is_limitedbroadcast v = true <-> v = dotted 255 255 255 255) /\
  (is_loopback v = true <-> loopback_network v /\ v <> dotted 127 0 0 0) /\
  (is_private v = true <-> private_network v) /\
  (is_multicast v = true <-> multicast_network v).
Proof.
  intros v U. unfold is_u32 in U.
  unfold is_unspecified, is_limitedbroadcast, is_loopback, is_private, is_multicast, loopback_network,
    private_network, multicast_network, in_network, dotted.
  rewrite ?orb_true_iff, ?andb_true_iff, ?Z.leb_le, ?Z.eqb_eq.
  repeat match goal with |- context [2 ^ ?x] => let y := eval vm_compute in (2 ^ x) in change (2 ^ x) with y end.
  split; [lia|]. split; [lia|]. repeat split; intros; Z.to_euclidean_division_equations; lia.
Qed.
Print Assumptions C50_classifiers4.

Example C50_example :
  is_u32 (dotted 172 31 255 255) /\ private_network (dotted 172 31 255 255) /\
  address6 [65152; 0; 0; 0; 1; 2; 3; 4] /\ linklocal_network (number6 [65152; 0; 0; 0; 1; 2; 3; 4]).
Proof.
  split; [vm_compute; split; congruence|]. split; [right; left; vm_compute; reflexivity|].
  split; [split; [reflexivity|repeat constructor; unfold is_u16; lia]|vm_compute; reflexivity].
Qed.

(** The name given to an address is the name of a network that contains it. *)
Theorem C50_address2type : forall le a, address6 a ->
  match address2type6 le a with
  | Loopback => number6 a = 1
  | GlobalUnicast => global_network (number6 a)
  | UniqueLocal => uniquelocal_network (number6 a)
  | LinkLocal => linklocal_network (number6 a)
  | Multicast => multicast6_network (number6 a)
  | Nat64Wkp => nat64_network (number6 a)
  | Atap => False
  | SixToFour => False
  | V4Loopback => number6 a = 65535 * 2 ^ 32 + dotted 127 0 0 1
  | V4Mapped => v4mapped_network (number6 a)
  | V4Compatible => v4compatible_network (number6 a)
  | Public => ~ global_network (number6 a) /\ ~ uniquelocal_network (number6 a) /\
      ~ linklocal_network (number6 a) /\ ~ multicast6_network (number6 a) /\ ~ nat64_network (number6 a) /\
      ~ v4mapped_network (number6 a) /\ ~ v4compatible_network (number6 a)
  end.
Proof.
  intros le a A. destruct (C50_classifiers le a A) as (_ & B1 & B2 & B3 & B4 & B5 & B6 & B7 & B8 & B9 & B10 & _).
  assert (X : forall b P, (b = true <-> P) -> b = false -> ~ P) by (intros b P E1 E2 E3; apply E1 in E3; congruence).
  unfold address2type6.
  destruct (is_loopback6 le a) eqn:E1; [apply B1; reflexivity|].
  destruct (is_unicastglobal a) eqn:E2; [apply B6; reflexivity|].
  destruct (is_uniquelocal a) eqn:E3; [apply B8; reflexivity|].
  destruct (is_linklocal a) eqn:E4; [apply B9; reflexivity|].
  destruct (is_multicast6 a) eqn:E5; [apply B10; reflexivity|].
  destruct (is_nat64wkp a) eqn:E6; [apply B5; reflexivity|].
  destruct (is_isatap a) eqn:E7; [unfold is_isatap in E7; rewrite E2 in E7; discriminate|].
  destruct (is_6to4 a) eqn:E8.
  { unfold is_6to4 in E8. unfold is_unicastglobal in E2. apply Z.eqb_eq in E8. rewrite E8 in E2. discriminate. }
  destruct (is_loopback4 le a) eqn:E9; [apply B2; reflexivity|].
  destruct (is_v4mapped le a) eqn:E10; [apply B3; reflexivity|].
  destruct (is_v4compatible le a) eqn:E11; [apply B4; reflexivity|].
  repeat split; eapply X; try eassumption; auto.
Qed.
Print Assumptions C50_address2type.

(** A 6to4 or ISATAP address is never named so: both are in 2000::/3, which is
    tested for first. *)
Theorem C50_tunnels_refuted :
  exists a b, address6 a /\ sixtofour_network (number6 a) /\ is_6to4 a = true /\
    address6 b /\ is_isatap b = true /\
    (forall le, address2type6 le a = GlobalUnicast /\ address2type6 le b = GlobalUnicast) /\
    forall le c, address6 c -> address2type6 le c <> SixToFour /\ address2type6 le c <> Atap.
Proof.
  exists [8194; 49320; 258; 0; 0; 0; 0; 1], [8193; 3512; 0; 0; 0; 24318; 49320; 258].
  split; [split; [reflexivity|repeat constructor; unfold is_u16; lia]|]. split; [vm_compute; reflexivity|].
  split; [vm_compute; reflexivity|]. split; [split; [reflexivity|repeat constructor; unfold is_u16; lia]|].
  split; [vm_compute; reflexivity|]. split; [intros []; split; vm_compute; reflexivity|].
  intros le c A. pose proof (C50_address2type le c A) as T. split; intros E; rewrite E in T; exact T.
Qed.
Print Assumptions C50_tunnels_refuted.

(** Two addresses compare equal exactly when they are the same. *)
Theorem C50_compare : forall le a b, address6 a -> address6 b ->
  (compare6 le a b = 0 <-> number6 a = number6 b).
Proof. intros le a b A B. rewrite <- Z.eqb_eq. apply compare6_number; assumption. Qed.
Print Assumptions C50_compare.

(** The sign of the comparison is however that of the numbers on big endian
    machines only. *)
Theorem C50_compare_order_refuted :
  exists a b, address6 a /\ address6 b /\ number6 a < number6 b /\
    compare6 false a b = -1 /\ compare6 true a b = 1.
Proof.
  exists [0; 0; 0; 0; 0; 0; 0; 255], [0; 0; 0; 0; 0; 0; 0; 256].
  do 2 (split; [split; [reflexivity|repeat constructor; unfold is_u16; lia]|]).
  split; [vm_compute; reflexivity|]. split; vm_compute; reflexivity.
Qed.
Print Assumptions C50_compare_order_refuted.

(** The list of addresses of a host name: the array the first pass sizes is
    exactly filled by the second; it ends with the unspecified address; and it
    has exactly the addresses the resolver returned. *)
Theorem C50_addresses : forall le l,
  Forall (fun ai => match ai with Some sa => sockaddr_ok sa | None => True end) l ->
  exists r, addresses6 le l = Some (r ++ [UNSPECIFIED6]) /\ length r = count_addresses None l /\
    Forall address6 r /\ forall x, In x (map number6 r) <-> In x (somes (map meaning l)).
Proof.
  intros le l F. destruct (fill_ok le (count_addresses None l + 1) l None [] F eq_refl) as (r & E & A & M).
  exists r. split; [exact E|].
  assert (L : length r = length (kept None l)) by (rewrite <- (map_length meaning), <- M, map_length; reflexivity).
  split; [rewrite L; apply kept_count|]. split; [exact A|]. intros x.
  assert (S1 : forall l : list (option Z), In x (somes l) <-> In (Some x) l).
  { intros k. induction k as [|[y|] k IH]; cbn; [tauto| |].
    - rewrite IH. split; intros [H|H]; auto; [left; congruence|left; injection H; auto].
    - rewrite IH. split; [auto|]. intros [H|H]; [discriminate|exact H]. }
  rewrite S1. destruct (kept_in l None x) as (K1 & K2).
  assert (S2 : In x (map number6 r) <-> In (Some x) (map (fun a => Some (number6 a)) r)).
  { rewrite !in_map_iff. split; intros (y & Y1 & Y2); exists y; split; congruence. }
  rewrite S2, M. split; [exact K1|]. intros H. destruct (K2 H) as [K|(p & K & _)]; [exact K|discriminate].
Qed.
Print Assumptions C50_addresses.

Example C50_addresses_example : forall le,
  addresses6 le [Some (Inet4 [10; 0; 0; 1] [0; 0]); Some (Inet4 [10; 0; 0; 1] [0; 0]); None; Some OtherFamily;
                 Some (Inet4 [10; 0; 0; 2] [0; 0])] =
  Some [[0; 0; 0; 0; 0; 65535; 2560; 1]; [0; 0; 0; 0; 0; 65535; 2560; 2]; UNSPECIFIED6].
Proof. intros []; vm_compute; reflexivity. Qed.

(** The IPv4 comparison orders addresses as numbers, and the name given to an
    IPv4 address is that of the first matching network. *)
Theorem C50_ipv4 : forall v w, is_u32 v -> is_u32 w ->
  (compare4 v w = 0 <-> v = w) /\ (compare4 v w < 0 <-> v < w) /\ (compare4 v w > 0 <-> v > w) /\
  (address2type4 v = LimitedBroadcast4 <-> v = dotted 255 255 255 255) /\
  (address2type4 v = Loopback_4 <-> loopback_network v /\ v <> dotted 127 0 0 0) /\
  (address2type4 v = Private4 <-> private_network v) /\
  (address2type4 v = Multicast4 <-> multicast_network v).
Proof.
  intros v w U W.
  assert (C : (compare4 v w = 0 <-> v = w) /\ (compare4 v w < 0 <-> v < w) /\ (compare4 v w > 0 <-> v > w)).
  { unfold compare4. destruct (Z.ltb_spec v w), (Z.ltb_spec w v); lia. }
  destruct C as (C1 & C2 & C3). split; [exact C1|]. split; [exact C2|]. split; [exact C3|].
  destruct (C50_classifiers4 v U) as (_ & B1 & B2 & B3 & B4). rewrite <- B1, <- B2, <- B3, <- B4. clear.
  unfold address2type4, is_limitedbroadcast, is_loopback, is_private, is_multicast.
  destruct (Z.eqb_spec v 4294967295); [subst; vm_compute; intuition discriminate|].
  destruct ((2130706433 <=? v) && (v <=? 2147483647)) eqn:E1.
  { apply andb_true_iff in E1 as (E1 & E2). apply Z.leb_le in E1, E2.
    repeat match goal with |- context [?a <=? ?b] => destruct (Z.leb_spec a b); try lia end; cbn; intuition discriminate. }
  match goal with |- context [if ?x then Private4 else _] => destruct x eqn:E2 end.
  { rewrite !orb_true_iff, !andb_true_iff, !Z.leb_le in E2.
    repeat match goal with |- context [?a <=? ?b] => destruct (Z.leb_spec a b); try lia end; cbn; intuition discriminate. }
  match goal with |- context [if ?x then Multicast4 else _] => destruct x eqn:E3 end; intuition discriminate.
Qed.
Print Assumptions C50_ipv4.
