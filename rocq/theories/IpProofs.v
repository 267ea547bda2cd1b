(** Proofs about the IPv4 and IPv6 address code. *)

From Coq Require Import ZArith List Bool Lia.
From Verif Require Import CInt IpModel IpSpec.
Import ListNotations.
Local Open Scope Z_scope.

Ltac zdiv := unfold is_u16, is_u8, is_u32 in *; Z.to_euclidean_division_equations; lia.

(** The shape of an address. *)
Lemma address6_inv a : address6 a -> exists a0 a1 a2 a3 a4 a5 a6 a7, a = [a0; a1; a2; a3; a4; a5; a6; a7] /\
  is_u16 a0 /\ is_u16 a1 /\ is_u16 a2 /\ is_u16 a3 /\ is_u16 a4 /\ is_u16 a5 /\ is_u16 a6 /\ is_u16 a7.
Proof.
  intros (L & F). do 8 (destruct a as [|? a]; [discriminate|]). destruct a; [|discriminate].
  repeat match goal with H : Forall _ (_ :: _) |- _ => apply Forall_cons_iff in H as (? & H) end.
  do 8 eexists. split; [reflexivity|]. auto 10.
Qed.

Lemma number6_8 a0 a1 a2 a3 a4 a5 a6 a7 : number6 [a0; a1; a2; a3; a4; a5; a6; a7] =
  a0 * 2^112 + a1 * 2^96 + a2 * 2^80 + a3 * 2^64 + a4 * 2^48 + a5 * 2^32 + a6 * 2^16 + a7.
Proof. unfold number6. cbn [fold_left]. lia. Qed.

(** Byte order. *)
Lemma swap16_range x : is_u16 x -> is_u16 (swap16 x).
Proof. unfold swap16. intros. zdiv. Qed.
Lemma swap16_inv x : is_u16 x -> swap16 (swap16 x) = x.
Proof. unfold swap16. intros. zdiv. Qed.
Definition quad (a b c d : Z) : Z := a * 16777216 + b * 65536 + c * 256 + d.

Lemma quad_parts a b c d : is_u8 a -> is_u8 b -> is_u8 c -> is_u8 d ->
  quad a b c d / 16777216 = a /\ quad a b c d / 65536 mod 256 = b /\ quad a b c d / 256 mod 256 = c /\
  quad a b c d mod 256 = d.
Proof.
  unfold is_u8, quad. intros A B C D.
  assert (E3 : (a * 16777216 + b * 65536 + c * 256 + d) / 16777216 = a) by (symmetry; apply (Z.div_unique _ _ _ (b * 65536 + c * 256 + d)); lia).
  assert (E2 : (a * 16777216 + b * 65536 + c * 256 + d) / 65536 = a * 256 + b) by (symmetry; apply (Z.div_unique _ _ _ (c * 256 + d)); lia).
  assert (E1 : (a * 16777216 + b * 65536 + c * 256 + d) / 256 = a * 65536 + b * 256 + c) by (symmetry; apply (Z.div_unique _ _ _ d); lia).
  rewrite E1, E2, E3. split; [reflexivity|]. split; [|split]; symmetry.
  - apply (Z.mod_unique _ _ a); lia.
  - apply (Z.mod_unique _ _ (a * 256 + b)); lia.
  - apply (Z.mod_unique _ _ (a * 65536 + b * 256 + c)); lia.
Qed.

Lemma quad_ex x : is_u32 x -> exists a b c d, is_u8 a /\ is_u8 b /\ is_u8 c /\ is_u8 d /\ x = quad a b c d.
Proof.
  unfold is_u32, is_u8, quad. intros U. exists (x / 16777216), (x / 65536 mod 256), (x / 256 mod 256), (x mod 256).
  pose proof (Z.div_mod x 256). pose proof (Z.div_mod (x / 256) 256). pose proof (Z.div_mod (x / 65536) 256).
  replace (x / 65536) with (x / 256 / 256) in * by (rewrite Z.div_div by lia; reflexivity).
  replace (x / 16777216) with (x / 256 / 256 / 256) in * by (rewrite !Z.div_div by lia; reflexivity).
  pose proof (Z.mod_pos_bound x 256). pose proof (Z.mod_pos_bound (x / 256) 256).
  pose proof (Z.mod_pos_bound (x / 256 / 256) 256). lia.
Qed.

Lemma swap32_quad a b c d : is_u8 a -> is_u8 b -> is_u8 c -> is_u8 d -> swap32 (quad a b c d) = quad d c b a.
Proof. intros A B C D. unfold swap32. destruct (quad_parts a b c d A B C D) as (-> & -> & -> & ->). reflexivity. Qed.

Lemma swap32_range x : is_u32 x -> is_u32 (swap32 x).
Proof. intros U. destruct (quad_ex x U) as (a & b & c & d & A & B & C & D & ->). rewrite swap32_quad by assumption. unfold is_u8, is_u32, quad in *. lia. Qed.
Lemma swap32_inv x : is_u32 x -> swap32 (swap32 x) = x.
Proof. intros U. destruct (quad_ex x U) as (a & b & c & d & A & B & C & D & ->). rewrite !swap32_quad by assumption. reflexivity. Qed.

Lemma map_swap_inv le a : Forall is_u16 a -> map (ntohs le) (map (htons le) a) = a.
Proof.
  unfold ntohs, htons. intros F. destruct le; [|rewrite !map_id; reflexivity].
  rewrite map_map. rewrite <- (map_id a) at 2. apply map_ext_in. intros x I.
  apply swap16_inv. rewrite Forall_forall in F. auto.
Qed.

Lemma ntoh_hton le a : Forall is_u16 a -> ntoh6 le (hton6 le a) = a.
Proof. intros F. unfold ntoh6, hton6. destruct le; [apply map_swap_inv, F|reflexivity]. Qed.

Lemma hton_ntoh le a : Forall is_u16 a -> hton6 le (ntoh6 le a) = a.
Proof.
  intros F. unfold ntoh6, hton6. destruct le; [|reflexivity].
  change (ntohs true) with (htons true). apply (map_swap_inv true), F.
Qed.

Lemma hton_address le a : address6 a -> address6 (hton6 le a).
Proof.
  intros (L & F). unfold hton6. destruct le; [|split; auto]. split; [rewrite map_length; exact L|].
  apply Forall_map. eapply Forall_impl; [|exact F]. intros x. apply swap16_range.
Qed.

(** In memory, network order is most significant octet first. *)
Lemma store16_hton le x : is_u16 x -> store16 le (htons le x) = [x / 256; x mod 256].
Proof.
  intros U. unfold store16, htons, swap16. destruct le; [|reflexivity]. f_equal; [|f_equal]; zdiv.
Qed.

Lemma network_app l1 l2 : network (l1 ++ l2) = network l1 * 256 ^ Z.of_nat (length l2) + network l2.
Proof.
  unfold network. rewrite fold_left_app. generalize (fold_left (fun v o => v * 256 + o) l1 0). clear l1.
  induction l2 as [|o l2 IH] using rev_ind; intros v; [cbn; lia|].
  rewrite !fold_left_app, IH, app_length. cbn [fold_left length]. rewrite Nat2Z.inj_add. cbn [Z.of_nat].
  rewrite Z.pow_add_r by lia. cbn. lia.
Qed.

Lemma number6_app l1 l2 : number6 (l1 ++ l2) = number6 l1 * 65536 ^ Z.of_nat (length l2) + number6 l2.
Proof.
  unfold number6. rewrite fold_left_app. generalize (fold_left (fun v o => v * 65536 + o) l1 0). clear l1.
  induction l2 as [|o l2 IH] using rev_ind; intros v; [cbn; lia|].
  rewrite !fold_left_app, IH, app_length. cbn [fold_left length]. rewrite Nat2Z.inj_add. cbn [Z.of_nat].
  rewrite Z.pow_add_r by lia. cbn. lia.
Qed.

Lemma mem6_hton le a : Forall is_u16 a -> network (mem6 le (hton6 le a)) = number6 a.
Proof.
  intros F. induction a as [|x a IH] using rev_ind; [destruct le; reflexivity|].
  apply Forall_app in F as (F & Fx). apply Forall_inv in Fx.
  assert (E : hton6 le (a ++ [x]) = hton6 le a ++ [htons le x])
    by (unfold hton6; destruct le; [rewrite map_app; reflexivity|reflexivity]).
  rewrite E. unfold mem6 in *. rewrite flat_map_app. cbn [flat_map]. rewrite app_nil_r, store16_hton by exact Fx.
  rewrite network_app, (IH F), number6_app. cbn [length].
  change (256 ^ Z.of_nat 2) with 65536. change (65536 ^ Z.of_nat 1) with 65536.
  change (network [x / 256; x mod 256]) with ((0 * 256 + x / 256) * 256 + x mod 256). change (number6 [x]) with (0 * 65536 + x).
  pose proof (Z.div_mod x 256). lia.
Qed.

(** memcmp. *)
Lemma memcmp_eq a : forall b, length a = length b -> memcmp a b = 0 <-> a = b.
Proof.
  induction a as [|x a IH]; intros [|y b] L; cbn in *; try discriminate; [tauto|].
  destruct (Z.eqb_spec x y) as [->|N].
  - rewrite (IH b) by lia. split; [intros ->; reflexivity|congruence].
  - split; [|congruence]. destruct (x <? y); discriminate.
Qed.

Lemma store16_inj le x y : is_u16 x -> is_u16 y -> store16 le x = store16 le y -> x = y.
Proof. unfold store16. intros U V E. destruct le; injection E as E1 E2; zdiv. Qed.

Lemma store16_len le x : length (store16 le x) = 2%nat.
Proof. destruct le; reflexivity. Qed.

Lemma app_inj2 {A} (a b c d : list A) : length a = length b -> a ++ c = b ++ d -> a = b /\ c = d.
Proof.
  revert b. induction a as [|x a IH]; intros [|y b] L E; cbn in *; try discriminate; [auto|].
  injection E as -> E. destruct (IH b) as (-> & ->); auto.
Qed.

Lemma mem6_inj le a : forall b, Forall is_u16 a -> Forall is_u16 b -> mem6 le a = mem6 le b -> a = b.
Proof.
  induction a as [|x a IH]; intros [|y b] Fa Fb E.
  - reflexivity.
  - destruct le; discriminate.
  - destruct le; discriminate.
  - apply Forall_cons_iff in Fa as (Ux & Fa). apply Forall_cons_iff in Fb as (Uy & Fb).
    unfold mem6 in E. cbn [flat_map] in E. apply app_inj2 in E as (E1 & E2); [|rewrite !store16_len; reflexivity].
    f_equal; [exact (store16_inj le x y Ux Uy E1)|exact (IH b Fa Fb E2)].
Qed.

Lemma mem6_len le a : length (mem6 le a) = (2 * length a)%nat.
Proof. induction a as [|x a IH]; [reflexivity|]. unfold mem6 in *. cbn [flat_map]. rewrite app_length, IH, store16_len. cbn. lia. Qed.

Lemma mem6_firstn le n : forall a, firstn (2 * n) (mem6 le a) = mem6 le (firstn n a).
Proof.
  induction n as [|n IH]; intros a; [reflexivity|]. destruct a as [|x a]; [reflexivity|].
  replace (2 * S n)%nat with (S (S (2 * n))) by lia. cbn [firstn]. unfold mem6 in *. cbn [flat_map].
  rewrite <- IH. destruct le; reflexivity.
Qed.

Lemma Forall_firstn {A} (P : A -> Prop) n l : Forall P l -> Forall P (firstn n l).
Proof. intros F. rewrite <- (firstn_skipn n l) in F. apply Forall_app in F. tauto. Qed.

Lemma prefix_cmp le a b : address6 a -> address6 b ->
  (memcmp (firstn (16 - 4) (mem6 le a)) (firstn (16 - 4) (mem6 le b)) =? 0) = true <-> firstn 6 a = firstn 6 b.
Proof.
  intros (L1 & F1) (L2 & F2). change (16 - 4)%nat with (2 * 6)%nat. rewrite !mem6_firstn, Z.eqb_eq, memcmp_eq.
  - split; [|congruence]. apply mem6_inj; apply Forall_firstn; assumption.
  - rewrite !mem6_len, !firstn_length. lia.
Qed.

Lemma compare6_eq le a b : address6 a -> address6 b -> (compare6 le a b =? 0) = true <-> a = b.
Proof.
  intros (L1 & F1) (L2 & F2). unfold compare6. rewrite Z.eqb_eq, memcmp_eq by (rewrite !mem6_len; lia).
  split; [apply mem6_inj; assumption|congruence].
Qed.

(** Numbers determine addresses. *)
Lemma number6_inj a b : address6 a -> address6 b -> number6 a = number6 b -> a = b.
Proof.
  intros Ha Hb E.
  apply address6_inv in Ha as (a0 & a1 & a2 & a3 & a4 & a5 & a6 & a7 & -> & A).
  apply address6_inv in Hb as (b0 & b1 & b2 & b3 & b4 & b5 & b6 & b7 & -> & B).
  rewrite !number6_8 in E. unfold is_u16 in *.
  assert (a7 = b7) by lia. subst. assert (a6 = b6) by lia. subst. assert (a5 = b5) by lia. subst.
  assert (a4 = b4) by lia. subst. assert (a3 = b3) by lia. subst. assert (a2 = b2) by lia. subst.
  assert (a1 = b1) by lia. subst. assert (a0 = b0) by lia. subst. reflexivity.
Qed.

Lemma number6_range a : address6 a -> 0 <= number6 a < 2 ^ 128.
Proof.
  intros Ha. apply address6_inv in Ha as (a0 & a1 & a2 & a3 & a4 & a5 & a6 & a7 & -> & A).
  rewrite number6_8. unfold is_u16 in *. lia.
Qed.

Lemma addr_unspec : address6 UNSPECIFIED6.
Proof. split; [reflexivity|]. repeat constructor; unfold is_u16; lia. Qed.
Lemma addr_loop6 : address6 LOOPBACK6.
Proof. split; [reflexivity|]. repeat constructor; unfold is_u16; lia. Qed.
Lemma addr_loop4 : address6 LOOPBACK4.
Proof. split; [reflexivity|]. repeat constructor; unfold is_u16; lia. Qed.

(** The classifiers. *)
Lemma compare6_number le a b : address6 a -> address6 b -> (compare6 le a b =? 0) = true <-> number6 a = number6 b.
Proof. intros Ha Hb. rewrite (compare6_eq le a b Ha Hb). split; [congruence|apply number6_inj; assumption]. Qed.

Ltac open6 H := let A := fresh "A" in
  apply address6_inv in H as (a0 & a1 & a2 & a3 & a4 & a5 & a6 & a7 & -> & A); unfold is_u16 in A.

Lemma prefix96 a b : address6 a -> address6 b ->
  firstn 6 a = firstn 6 b <-> number6 a / 2 ^ 32 = number6 b / 2 ^ 32.
Proof.
  intros Ha Hb.
  assert (X : forall c, address6 c -> number6 c / 2 ^ 32 = number6 (firstn 6 c ++ [0; 0]) / 2 ^ 32 /\ address6 (firstn 6 c ++ [0; 0]) /\ number6 (firstn 6 c ++ [0; 0]) mod 2 ^ 32 = 0).
  { intros c Hc. open6 Hc. cbn [firstn app]. rewrite !number6_8. split; [|split].
    - Z.to_euclidean_division_equations; lia.
    - split; [reflexivity|]. repeat constructor; unfold is_u16; lia.
    - Z.to_euclidean_division_equations; lia. }
  destruct (X a Ha) as (E1 & W1 & M1), (X b Hb) as (E2 & W2 & M2). split; intros E.
  - rewrite E1, E2, E. reflexivity.
  - apply (app_inv_tail [0; 0]). apply number6_inj; try assumption.
    rewrite (Z.div_mod (number6 (firstn 6 a ++ [0; 0])) (2 ^ 32)), (Z.div_mod (number6 (firstn 6 b ++ [0; 0])) (2 ^ 32)) by lia.
    rewrite M1, M2, <- E1, <- E2, E. reflexivity.
Qed.

Lemma is_v4mapped_spec le a : address6 a -> is_v4mapped le a = true <-> v4mapped_network (number6 a).
Proof.
  intros Ha. unfold is_v4mapped. rewrite (prefix_cmp le a LOOPBACK4 Ha addr_loop4), (prefix96 a LOOPBACK4 Ha addr_loop4).
  reflexivity.
Qed.

Lemma is_v4compatible_spec le a : address6 a -> is_v4compatible le a = true <-> v4compatible_network (number6 a).
Proof.
  intros Ha. unfold is_v4compatible. rewrite (prefix_cmp le a _ Ha addr_unspec), (prefix96 a _ Ha addr_unspec).
  reflexivity.
Qed.

Ltac cls := unfold in_network, at16; cbn [nth]; rewrite ?number6_8; rewrite ?andb_true_iff, ?Z.leb_le, ?Z.eqb_eq;
  split; intros; Z.to_euclidean_division_equations; lia.

Lemma is_unicastglobal_spec a : address6 a -> is_unicastglobal a = true <-> global_network (number6 a).
Proof. intros Ha. open6 Ha. unfold is_unicastglobal, global_network. cls. Qed.
Lemma is_6to4_spec a : address6 a -> is_6to4 a = true <-> sixtofour_network (number6 a).
Proof. intros Ha. open6 Ha. unfold is_6to4, sixtofour_network. cls. Qed.
Lemma is_uniquelocal_spec a : address6 a -> is_uniquelocal a = true <-> uniquelocal_network (number6 a).
Proof. intros Ha. open6 Ha. unfold is_uniquelocal, uniquelocal_network. cls. Qed.
Lemma is_linklocal_spec a : address6 a -> is_linklocal a = true <-> linklocal_network (number6 a).
Proof. intros Ha. open6 Ha. unfold is_linklocal, linklocal_network. cls. Qed.
Lemma is_multicast6_spec a : address6 a -> is_multicast6 a = true <-> multicast6_network (number6 a).
Proof. intros Ha. open6 Ha. unfold is_multicast6, multicast6_network. cls. Qed.
Lemma is_nat64wkp_spec a : address6 a -> is_nat64wkp a = true <-> nat64_network (number6 a).
Proof.
  intros Ha. pose (p := [100; 65435; 0; 0; 0; 0; 0; 0]).
  assert (Hp : address6 p) by (split; [reflexivity|]; repeat constructor; unfold is_u16; lia).
  transitivity (firstn 6 a = firstn 6 p).
  - open6 Ha. unfold is_nat64wkp, at16. cbn [nth firstn p]. rewrite !andb_true_iff, !Z.eqb_eq.
    split; [intros (((((-> & ->) & ->) & ->) & ->) & ->); reflexivity|].
    intros E. injection E as -> -> -> -> -> ->. auto 10.
  - rewrite (prefix96 a p Ha Hp). reflexivity.
Qed.

(** IPv4 in IPv6. *)
Lemma ipv4toipv6_eq le v : is_u32 v -> ipv4toipv6 le v = [0; 0; 0; 0; 0; 65535; v / 65536; v mod 65536].
Proof.
  intros U. destruct (quad_ex v U) as (a & b & c & d & A & B & C & D & ->).
  assert (E1 : quad a b c d / 65536 = a * 256 + b)
    by (unfold is_u8, quad in *; symmetry; apply (Z.div_unique _ _ _ (c * 256 + d)); lia).
  assert (E2 : quad a b c d mod 65536 = c * 256 + d)
    by (unfold is_u8, quad in *; symmetry; apply (Z.mod_unique _ _ (a * 256 + b)); lia).
  rewrite E1, E2. clear E1 E2. unfold ipv4toipv6, htonl, store32. destruct le.
  - rewrite swap32_quad by assumption. destruct (quad_parts d c b a D C B A) as (-> & -> & -> & ->).
    cbn -[Z.div Z.modulo Z.mul Z.add swap16]. do 8 (apply (f_equal2 cons); [unfold swap16; zdiv|]). reflexivity.
  - destruct (quad_parts a b c d A B C D) as (-> & -> & -> & ->).
    cbn -[Z.div Z.modulo Z.mul Z.add]. do 8 (apply (f_equal2 cons); [zdiv|]). reflexivity.
Qed.

Lemma load32_network le l : length l = 4%nat -> octets l -> ntohl le (load32 le l) = network l.
Proof.
  intros L F. do 4 (destruct l as [|? l]; [discriminate|]). destruct l; [|discriminate].
  unfold octets in F. repeat match goal with H : Forall _ (_ :: _) |- _ => apply Forall_cons_iff in H as (? & H) end.
  unfold ntohl, load32, network. destruct le; [|reflexivity]. cbn [rev app fold_left].
  transitivity (swap32 (quad z2 z1 z0 z)); [f_equal; unfold quad; ring|].
  rewrite swap32_quad by assumption. unfold quad. ring.
Qed.

Lemma mem6_octets le a : Forall is_u16 a -> octets (mem6 le a).
Proof.
  induction 1 as [|x a U F IH]; [constructor|]. unfold mem6 in *. cbn [flat_map]. apply Forall_app. split; [|exact IH].
  unfold store16. destruct le; repeat constructor; zdiv.
Qed.

Lemma ipv6toipv4_eq le a : address6 a -> is_v4mapped le a = true ->
  ipv6toipv4 le a = Some (number6 a mod 2 ^ 32).
Proof.
  intros Ha M. unfold ipv6toipv4. rewrite M. f_equal. destruct (hton_address le a Ha) as (L1 & F1).
  assert (E : firstn 4 (skipn 12 (mem6 le (hton6 le a))) = mem6 le (hton6 le (skipn 6 a))).
  { destruct Ha as (L & F). do 8 (destruct a as [|? a]; [discriminate|]). destruct a; [|discriminate]. destruct le; reflexivity. }
  assert (Ha' := Ha). destruct Ha' as (L & F).
  assert (F2 : Forall is_u16 (skipn 6 a)) by (rewrite <- (firstn_skipn 6 a) in F; apply Forall_app in F; tauto).
  rewrite load32_network.
  - rewrite E, (mem6_hton le _ F2). clear E M L1 F1 F2 L F. open6 Ha. cbn [skipn]. rewrite number6_8.
    apply (Z.mod_unique _ _ (a0 * 2^80 + a1 * 2^64 + a2 * 2^48 + a3 * 2^32 + a4 * 2^16 + a5)); unfold number6; cbn [fold_left]; lia.
  - rewrite firstn_length, skipn_length, mem6_len. lia.
  - apply Forall_firstn. pose proof (mem6_octets le _ F1) as O. rewrite <- (firstn_skipn 12 (mem6 le (hton6 le a))) in O.
    apply Forall_app in O. tauto.
Qed.

(** Socket addresses. *)
Lemma field16_network le l : length l = 2%nat -> octets l -> ntohs le (field16 le l) = network l.
Proof.
  intros L F. do 2 (destruct l as [|? l]; [discriminate|]). destruct l; [|discriminate].
  unfold octets in F. repeat match goal with H : Forall _ (_ :: _) |- _ => apply Forall_cons_iff in H as (? & H) end.
  unfold ntohs, field16, load16, network. destruct le; cbn -[Z.div Z.modulo Z.mul Z.add swap16]; unfold swap16; zdiv.
Qed.

Lemma network_range4 l : length l = 4%nat -> octets l -> is_u32 (network l).
Proof.
  intros L F. do 4 (destruct l as [|? l]; [discriminate|]). destruct l; [|discriminate].
  unfold octets in F. repeat match goal with H : Forall _ (_ :: _) |- _ => apply Forall_cons_iff in H as (? & H) end.
  unfold network. cbn -[Z.mul Z.add]. unfold is_u32, is_u8 in *. lia.
Qed.

Lemma load6_ntoh le l n : length l = (2 * n)%nat -> octets l ->
  length (ntoh6 le (load6 le l)) = n /\ Forall is_u16 (ntoh6 le (load6 le l)) /\
  number6 (ntoh6 le (load6 le l)) = network l.
Proof.
  revert l. induction n as [|n IH]; intros l L F.
  - destruct l; [|discriminate]. destruct le; (split; [reflexivity|split; [constructor|reflexivity]]).
  - destruct l as [|a [|b l]]; try (cbn in L; lia).
    apply Forall_cons_iff in F as (Ua & F). apply Forall_cons_iff in F as (Ub & F).
    destruct (IH l) as (L1 & F1 & N1); [cbn in L; lia|exact F|].
    assert (E : ntoh6 le (load6 le (a :: b :: l)) = (256 * a + b) :: ntoh6 le (load6 le l)).
    { unfold ntoh6. destruct le; cbn [load6 map]; f_equal; unfold ntohs, load16, swap16; zdiv. }
    rewrite E. cbn [length]. split; [congruence|]. split; [constructor; [unfold is_u16, is_u8 in *; lia|exact F1]|].
    change ((256 * a + b) :: ntoh6 le (load6 le l)) with ([256 * a + b] ++ ntoh6 le (load6 le l)).
    change (a :: b :: l) with ([a; b] ++ l). rewrite number6_app, network_app, N1, L1.
    replace (length l) with (2 * n)%nat by (cbn in L; lia).
    change 65536 with (256 ^ 2). rewrite <- Z.pow_mul_r by lia. rewrite Nat2Z.inj_mul.
    unfold number6, network. cbn [fold_left]. change (Z.of_nat 2) with 2. f_equal. f_equal. lia.
Qed.

Lemma identify6_ok le sa : sockaddr_ok sa -> sa <> OtherFamily ->
  address6 (snd (fst (identify6 le sa))) /\ Some (number6 (snd (fst (identify6 le sa)))) = meaning (Some sa).
Proof.
  intros W N. destruct sa as [a p|a p|]; [| |congruence]; destruct W as (L & Lp & F & Fp); cbn [identify6 fst snd meaning].
  - destruct (load6_ntoh le a 8 L F) as (A & B & C). split; [split; auto|congruence].
  - rewrite (load32_network le a L F). pose proof (network_range4 a L F) as U. rewrite (ipv4toipv6_eq le _ U).
    split; [split; [reflexivity|]; unfold is_u32 in U; repeat constructor; unfold is_u16; try lia; zdiv|].
    f_equal. rewrite number6_8. zdiv.
Qed.

(** Address lists. *)
Lemma redundant_sa prev ai : redundant prev ai = false -> exists sa, ai = Some sa /\ sa <> OtherFamily.
Proof.
  destruct ai as [[a p|a p|]|]; cbn; intros E; try discriminate; eexists; split; try reflexivity; discriminate.
Qed.

Fixpoint kept (prev : option addrinfo) (l : list addrinfo) : list addrinfo :=
  match l with
  | [] => []
  | ai :: l' => if redundant prev ai then kept (Some ai) l' else ai :: kept (Some ai) l'
  end.

Definition wf (ai : addrinfo) : Prop := match ai with Some sa => sockaddr_ok sa | None => True end.

Lemma kept_count prev l : length (kept prev l) = count_addresses prev l.
Proof. revert prev. induction l as [|ai l IH]; intros prev; cbn; [reflexivity|]. destruct (redundant prev ai); cbn; rewrite IH; reflexivity. Qed.

Lemma fill_ok le room l : forall prev written, Forall wf l -> room = (length written + count_addresses prev l + 1)%nat ->
  exists r, fill_addresses le room written prev l = Some (written ++ r ++ [UNSPECIFIED6]) /\
    Forall address6 r /\ map (fun a => Some (number6 a)) r = map meaning (kept prev l).
Proof.
  induction l as [|ai l IH]; intros prev written F R; cbn [fill_addresses count_addresses kept] in *.
  - exists []. unfold put6. destruct (Nat.ltb_spec (length written) room); [|lia]. auto.
  - apply Forall_cons_iff in F as (W & F). destruct (redundant prev ai) eqn:D; rewrite ?D in R; [apply IH; assumption|].
    destruct (redundant_sa _ _ D) as (sa & -> & N). unfold put6. destruct (Nat.ltb_spec (length written) room); [|lia].
    destruct (IH (Some (Some sa)) (written ++ [snd (fst (identify6 le sa))]) F) as (r & E & A & M);
      [rewrite app_length, R; cbn [length]; rewrite <- (Nat.add_assoc (length written) 1); reflexivity|].
    destruct (identify6_ok le sa W N) as (A1 & M1).
    exists (snd (fst (identify6 le sa)) :: r). split; [etransitivity; [exact E|rewrite <- app_assoc; reflexivity]|].
    split; [constructor; assumption|]. cbn [map]. rewrite M, M1. reflexivity.
Qed.

Lemma eqlist_eq a : forall b, eqlist a b = true <-> a = b.
Proof.
  induction a as [|x a IH]; intros [|y b]; cbn; try (split; congruence).
  rewrite andb_true_iff, Z.eqb_eq, IH. split; [intros (-> & ->); reflexivity|]. intros E; injection E as -> ->; auto.
Qed.

Lemma kept_in l : forall prev x, (In (Some x) (map meaning (kept prev l)) -> In (Some x) (map meaning l)) /\
  (In (Some x) (map meaning l) -> In (Some x) (map meaning (kept prev l)) \/ (exists p, prev = Some p /\ meaning p = Some x)).
Proof.
  induction l as [|ai l IH]; intros prev x; [cbn; auto|]. cbn [kept map].
  destruct (IH (Some ai) x) as (I1 & I2). destruct (redundant prev ai) eqn:D; cbn [map].
  - split; [intros H; right; auto|]. intros H.
    assert (X : meaning ai = Some x -> exists p, prev = Some p /\ meaning p = Some x).
    { intros E. destruct ai as [[a p|a p|]|]; cbn [redundant] in D; cbn [meaning] in E; try discriminate E;
        destruct prev as [[[b q|b q|]|]|]; try discriminate D; apply eqlist_eq in D; subst b;
        (eexists; split; [reflexivity|exact E]). }
    destruct H as [H|H]; [right; auto|]. destruct (I2 H) as [K|(p & K1 & K2)]; [auto|].
    injection K1 as <-. right. auto.
  - split; [intros [H|H]; [left; exact H|right; auto]|]. intros [H|H]; [left; left; exact H|].
    destruct (I2 H) as [K|(p & K1 & K2)]; [left; right; exact K|]. injection K1 as <-. left. left. exact K2.
Qed.
