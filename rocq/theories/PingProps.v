(** Properties C75 and C76. *)

From Coq Require Import ZArith List Bool Lia.
From Verif Require Import CInt CUtil IpModel IpSpec IpProofs PingModel PingSpec PingProofs.
Import ListNotations.
Local Open Scope Z_scope.

(** The checksum, as it is in memory, is that of RFC 1071 on every machine, and nothing
    beyond the data is read. *)
Theorem C75_checksum : forall le l more, octets l -> Z.of_nat (length l) <= 131074 ->
  exists c, inet_checksum le (l ++ more) (Z.of_nat (length l)) = Some c /\ store16 le c = wire (rfc1071 l).
Proof.
  intros le l more O L. rewrite checksum_spec by assumption. eexists. split; [reflexivity|]. apply stored_spec, O.
Qed.
Print Assumptions C75_checksum.

(** Data with its checksum in it, at an even offset where there was zero, have the
    checksum zero, on any other machine too. *)
Theorem C75_verifies : forall le le' p s, octets (p ++ s) -> Nat.Even (length p) -> Z.of_nat (length (p ++ s)) <= 131072 ->
  exists c, inet_checksum le (p ++ [0; 0] ++ s) (Z.of_nat (length (p ++ [0; 0] ++ s))) = Some c /\
    let d := p ++ store16 le c ++ s in inet_checksum le' d (Z.of_nat (length d)) = Some 0.
Proof.
  intros le le' p s O E L. pose proof O as OO. apply Forall_app in OO. destruct OO as (O1 & O2).
  assert (O3 : octets (p ++ [0; 0] ++ s)) by (apply Forall_app; split; [exact O1|]; apply Forall_app; split; [repeat (apply Forall_cons; [red; lia|]); apply Forall_nil|exact O2]).
  destruct (C75_checksum le (p ++ [0; 0] ++ s) [] O3) as (c & C & S); [rewrite !app_length in *; cbn [length]; lia|]. rewrite app_nil_r in C. exists c. split; [exact C|].
  cbn zeta. rewrite S. set (d := p ++ wire (rfc1071 (p ++ [0; 0] ++ s)) ++ s).
  destruct (wire_words _ (rfc1071_range _ O3)) as (_ & OW).
  assert (OD : octets d) by (apply Forall_app; split; [exact O1|]; apply Forall_app; split; [exact OW|exact O2]).
  destruct (checksum_zero le' d [] OD) as (c' & C' & Z0); [unfold d; rewrite !app_length in *; cbn [length wire]; lia|]. rewrite app_nil_r in C'. rewrite C'.
  f_equal. apply Z0, correct_field; assumption.
Qed.
Print Assumptions C75_verifies.

(** Data whose checksum is zero have another one if just one octet is changed. *)
Theorem C75_detects : forall le le' a b, octets a -> octets b -> Z.of_nat (length a) <= 131074 -> differ_once a b ->
  inet_checksum le a (Z.of_nat (length a)) = Some 0 -> inet_checksum le' b (Z.of_nat (length b)) <> Some 0.
Proof.
  intros le le' a b OA OB L D CA CB. pose proof D as (p & x & y & s & N & -> & ->).
  destruct (checksum_zero le (p ++ x :: s) [] OA L) as (c1 & C1 & Z1).
  destruct (checksum_zero le' (p ++ y :: s) [] OB) as (c2 & C2 & Z2); [rewrite app_length in *; cbn [length] in *; lia|].
  rewrite app_nil_r in C1, C2. rewrite C1 in CA. rewrite C2 in CB. injection CA as CA. injection CB as CB. apply Z1 in CA. apply Z2 in CB.
  destruct CA as (CA & _). destruct CB as (CB & _).
  assert (X : is_u8 x /\ is_u8 y) by (split; [apply Forall_app in OA; destruct OA as (_ & OA); exact (Forall_inv OA)|apply Forall_app in OB; destruct OB as (_ & OB); exact (Forall_inv OB)]).
  assert (W : words (p ++ x :: s) - words (p ++ y :: s) = 256 * (x - y) \/ words (p ++ x :: s) - words (p ++ y :: s) = x - y).
  { clear. induction p as [|u|u v p IH] using pairs_ind; cbn [app words].
    - left. destruct s; lia.
    - right. lia.
    - destruct IH as [IH|IH]; [left|right]; lia. }
  assert (M : (words (p ++ x :: s) - words (p ++ y :: s)) mod 65535 = 0) by (rewrite Zminus_mod, CA, CB; reflexivity).
  apply Z.mod_divide in M; [|lia]. destruct M as (k & M). destruct X as (X & Y). unfold is_u8 in *. lia.
Qed.
Print Assumptions C75_detects.

(** Beyond that size carries are lost. *)
Theorem C75_size_refuted : forall le, let l := repeat 255 (Z.to_nat 131076) in
  inet_checksum le l (Z.of_nat (length l)) = Some 1 /\ rfc1071 l = 0.
Proof. intros le. cbn zeta. destruct le; split; vm_compute; reflexivity. Qed.
Print Assumptions C75_size_refuted.

(** A case in which the hypotheses hold: the example of RFC 1071, and an odd octet. *)
Example C75_example :
  rfc1071 [0x00; 0x01; 0xf2; 0x03; 0xf4; 0xf5; 0xf6; 0xf7] = 65535 - 0xddf2 /\
  inet_checksum false [0x00; 0x01; 0xf2; 0x03; 0xf4; 0xf5; 0xf6; 0xf7] 8 = Some (65535 - 0xddf2) /\
  inet_checksum true [0x00; 0x01; 0xf2; 0x03; 0xf4; 0xf5; 0xf6; 0xf7] 8 = Some (65535 - 0xf2dd) /\
  inet_checksum true [7] 1 = Some (65535 - 7).
Proof. repeat split. Qed.
Print Assumptions C75_example.

(** An echo request: to the address, with a correct checksum, the identifier, the
    sequence number and the time being in it where a receiver looks for them. *)
Theorem C76_send : forall le now address id seq,
  0 <= now < 2 ^ 64 -> is_u32 address -> is_u16 id -> is_u16 seq ->
  exists to d rest, ping4_send le now address id seq = Some (to, d) /\
    length to = 4%nat /\ network to = address /\
    length d = 64%nat /\ octets d /\ echo 8 d rest /\ correct d.
Proof.
  intros le now address id seq N A I S. unfold ping4_send. rewrite (send_buffer le now id seq 8).
  pose proof (rest_octets le now id seq N I S) as OR. pose proof (rest_len le now id seq) as LR. set (rest := rest_of le now id seq) in *.
  assert (OB : octets (8 :: 0 :: 0 :: 0 :: rest)) by (repeat (apply Forall_cons; [red; lia|]); exact OR).
  destruct (C75_checksum le (8 :: 0 :: 0 :: 0 :: rest) [] OB) as (c & C & W); [cbn [length]; lia|]. rewrite app_nil_r in C. cbn [length] in C. rewrite LR in C.
  change (Z.of_nat 64) with 64 in C. rewrite C. cbn [bind]. rewrite W. pose proof (rfc1071_range _ OB) as R. destruct (wire_words _ R) as (_ & OW).
  assert (E : put 2 (wire (rfc1071 (8 :: 0 :: 0 :: 0 :: rest))) (8 :: 0 :: 0 :: 0 :: rest) = [8; 0] ++ wire (rfc1071 ([8; 0] ++ [0; 0] ++ rest)) ++ rest) by reflexivity.
  rewrite E. eexists _, _, rest. split; [reflexivity|].
  assert (T : store32 le (htonl le address) = store32 false address).
  { destruct le; [|reflexivity]. destruct (quad_ex address A) as (a & b & c' & d & Ua & Ub & Uc & Ud & ->). cbn [htonl].
    rewrite swap32_quad by assumption. destruct (quad_parts a b c' d Ua Ub Uc Ud) as (P1 & P2 & P3 & P4). destruct (quad_parts d c' b a Ud Uc Ub Ua) as (Q1 & Q2 & Q3 & Q4).
    unfold store32. cbn [rev app]. rewrite P1, P2, P3, P4, Q1, Q2, Q3, Q4. reflexivity. }
  split; [destruct le; reflexivity|]. split.
  { rewrite T. destruct (quad_ex address A) as (a & b & c' & d & Ua & Ub & Uc & Ud & ->). destruct (quad_parts a b c' d Ua Ub Uc Ud) as (P1 & P2 & P3 & P4).
    unfold store32. rewrite P1, P2, P3, P4. unfold network, quad. cbn [fold_left]. lia. }
  split; [rewrite !app_length, LR; reflexivity|]. split.
  { apply Forall_app; split; [repeat (apply Forall_cons; [red; lia|]); apply Forall_nil|]. apply Forall_app; split; [exact OW|exact OR]. }
  split; [unfold wire; cbn [app]; eexists _, _; reflexivity|].
  apply correct_field; [|exists 1%nat; reflexivity]. apply Forall_app; split; [repeat (apply Forall_cons; [red; lia|]); apply Forall_nil|exact OR].
Qed.
Print Assumptions C76_send.

(** The reply to it, in a packet without options, is recognized, and gives what was
    sent, and how long it took. *)
Theorem C76_roundtrip : forall le now now' address id seq to d rest reply header ttl sa,
  0 <= now < 2 ^ 64 -> is_u16 id -> is_u16 seq ->
  ping4_send le now address id seq = Some (to, d) -> echo 8 d rest ->
  header4 header ttl -> echo 0 reply rest -> octets reply -> correct reply -> sockaddr_ok sa ->
  ping4_receive le now' sa 84 (header ++ reply) =
    Some (64, mkreply (Some (match sa with Inet4 a _ => network a | _ => 0 end)) (Some 0) (Some 0) (Some id) (Some seq) (Some ttl) (Some ((now' - now) mod 2 ^ 64))).
Proof.
  intros le now now' address id seq to d rest reply header ttl sa N I S E (x0 & x1 & ED) (HL & HO & HV & HT) (c0 & c1 & ER) OR C SA.
  assert (RR : rest = rest_of le now id seq).
  { unfold ping4_send in E. rewrite (send_buffer le now id seq 8) in E. destruct (inet_checksum le _ 64) as [c|]; [|discriminate E]. cbn [bind] in E. injection E as _ E.
    rewrite ED in E. unfold put in E. rewrite store16_len in E. pose proof (store16_len le c) as L. destruct (store16 le c) as [|y0 [|y1 [|]]]; try discriminate L.
    cbn [firstn skipn app plus] in E. congruence. }
  subst rest reply d. unfold ping4_receive. cbn [Z.leb Z.compare]. set (rest := rest_of le now id seq) in *. pose proof (rest_len le now id seq) as LR. fold rest in LR.
  set (r := 0 :: 0 :: c0 :: c1 :: rest) in *. assert (LRR : length r = 64%nat) by (unfold r; cbn [length]; lia).
  rewrite app_length, HL, LRR. change (repeat 0 (84 - (20 + 64))) with (@nil Z). rewrite app_nil_r. cbn [Z.ltb Z.compare Pos.compare Pos.compare_cont].
  assert (V : octet 0 (header ++ r) = 0x45) by (unfold octet; rewrite app_nth1 by lia; exact HV). rewrite V. change (Z.to_nat (4 * (0x45 mod 16))) with 20%nat.
  assert (K : skipn 20 (header ++ r) = r) by (rewrite <- HL at 1; rewrite skipn_app, skipn_all, Nat.sub_diag; reflexivity). rewrite K.
  change (u64 (84 - Z.of_nat 20)) with 64. destruct (checksum_zero le r [] OR ltac:(lia)) as (c & CC & Z0). rewrite app_nil_r, LRR in CC. change (Z.of_nat 64) with 64 in CC.
  rewrite CC. cbn [bind]. assert (c = 0) as -> by (apply Z0, C). cbn [Z.eqb negb]. change (octet 0 r) with 0. change (octet 1 r) with 0. cbn [Z.eqb negb].
  assert (HT2 : octet 8 (header ++ r) = ttl) by (unfold octet; rewrite app_nth1 by lia; exact HT). rewrite HT2.
  destruct (rest_read le now id seq [0; 0; c0; c1] eq_refl N) as (F1 & F2 & F3). cbn [app] in F1, F2, F3. fold rest in F1, F2, F3. fold r in F1, F2, F3. rewrite F1, F2, F3.
  assert (FR : snd (fst (identify4 le sa)) = match sa with Inet4 a _ => network a | _ => 0 end).
  { destruct sa as [a p|a p|]; try reflexivity. destruct SA as (L4 & _ & O4 & _). cbn [identify4 fst snd]. apply load32_network; assumption. }
  rewrite FR. reflexivity.
Qed.
Print Assumptions C76_roundtrip.

(** Whatever arrives in an honest packet, nothing outside the buffer is read; a result
    greater than zero means an echo reply, complete and with a correct checksum, and
    nothing but the address is told of a datagram whose checksum is not correct. *)
Theorem C76_receive : forall le now sa total received, honest4 total received ->
  exists t reply, ping4_receive le now sa total received = Some (t, reply) /\
    let icmp := skipn (Z.to_nat (4 * (nth 0 received 0 mod 16))) received in
    (0 < t -> total = 84 /\ t = 64 /\ correct icmp /\ nth 0 icmp 0 = 0 /\ type reply = Some 0 /\ elapsed reply <> None) /\
    (t < 0 -> t = total) /\
    (type reply <> None -> correct icmp) /\ (id reply <> None -> nth 0 icmp 0 = 0).
Proof.
  intros le now sa total received (H1 & H2 & H3 & H4). unfold ping4_receive. cbn zeta. destruct (Z.leb_spec total 0) as [L0|L0].
  { eexists _, _. split; [reflexivity|]. cbn. split; [lia|]. split; [reflexivity|]. split; congruence. }
  specialize (H2 L0). destruct (Z.ltb_spec total 28) as [L1|L1].
  { eexists _, _. split; [reflexivity|]. cbn. split; [lia|]. split; [lia|]. split; congruence. }
  specialize (H4 ltac:(lia)). set (pad := repeat 0 (84 - length received)).
  assert (V : octet 0 (received ++ pad) = nth 0 received 0) by (unfold octet; rewrite app_nth1 by lia; reflexivity). rewrite V.
  set (ihl := 4 * (nth 0 received 0 mod 16)) in *. set (icmp := skipn (Z.to_nat ihl) received).
  assert (LI : Z.of_nat (length icmp) = total - ihl) by (unfold icmp; rewrite skipn_length; lia).
  assert (K : skipn (Z.to_nat ihl) (received ++ pad) = icmp ++ pad) by (rewrite skipn_app; replace (Z.to_nat ihl - length received)%nat with 0%nat by lia; reflexivity).
  rewrite K. rewrite Z2Nat.id by lia. assert (U : u64 (total - ihl) = Z.of_nat (length icmp)) by (unfold u64; rewrite Z.mod_small by lia; lia). rewrite U.
  assert (OI : octets icmp) by (unfold icmp; rewrite <- (firstn_skipn (Z.to_nat ihl) received) in H3; apply Forall_app in H3; apply H3).
  destruct (checksum_zero le icmp pad OI ltac:(lia)) as (c & -> & Z0). cbn [bind]. destruct (Z.eqb_spec c 0) as [C|C]; cbn [negb].
  2:{ eexists _, _. split; [reflexivity|]. cbn. split; [lia|]. split; [lia|]. split; congruence. }
  apply Z0 in C. assert (NE : icmp <> []) by (intros Q; rewrite Q in C; destruct C as (_ & C); apply C; reflexivity).
  assert (T : octet 0 (icmp ++ pad) = nth 0 icmp 0) by (unfold octet; rewrite app_nth1; [reflexivity|destruct icmp; [congruence|cbn; lia]]). rewrite T.
  destruct (Z.eqb_spec (nth 0 icmp 0) 0) as [T0|T0]; cbn [negb].
  2:{ eexists _, _. split; [reflexivity|]. cbn [type id elapsed]. split; [lia|]. split; [lia|]. split; [intros _; exact C|congruence]. }
  destruct (Z.ltb_spec total 84) as [L2|L2].
  { eexists _, _. split; [reflexivity|]. cbn [type id elapsed]. split; [lia|]. split; [lia|]. split; intros _; assumption. }
  eexists _, _. split; [reflexivity|]. cbn [type id elapsed]. split.
  { intros _. split; [lia|]. split; [lia|]. split; [exact C|]. split; [exact T0|]. split; [congruence|discriminate]. }
  split; [lia|]. split; intros _; assumption.
Qed.
Print Assumptions C76_receive.

(** The length of the header is not compared with that of the packet: from a dishonest
    one memory outside the buffer would be read. *)
Theorem C76_header_refuted : forall le now sa, exists received, length received = 28%nat /\ octets received /\
  ping4_receive le now sa 28 received = None.
Proof.
  intros le now sa. exists (0x4f :: repeat 0 27). split; [reflexivity|]. split; [repeat (apply Forall_cons; [red; lia|]); apply Forall_nil|].
  unfold ping4_receive. cbn [Z.leb Z.compare Z.ltb Pos.compare Pos.compare_cont]. change (octet 0 ((0x4f :: repeat 0 27) ++ repeat 0 (84 - length (0x4f :: repeat 0 27)))) with 0x4f.
  change (u64 (28 - Z.of_nat (Z.to_nat (4 * (0x4f mod 16))))) with 18446744073709551584. unfold inet_checksum at 1.
  match goal with |- context [Z.of_nat (length ?l) <? _] => change (length l) with 24%nat end. reflexivity.
Qed.
Print Assumptions C76_header_refuted.

(** The same for IPv6, where the kernel is responsible for the checksum. *)
Theorem C76_send6 : forall le now a id seq, address6 a -> 0 <= now < 2 ^ 64 -> is_u16 id -> is_u16 seq ->
  exists rest, ping6_send le now a id seq = (fst (ping6_send le now a id seq), 128 :: 0 :: 0 :: 0 :: rest) /\
    network (fst (ping6_send le now a id seq)) = number6 a /\ length rest = 60%nat /\ octets rest.
Proof.
  intros le now a id seq A N I S. exists (rest_of le now id seq). unfold ping6_send. rewrite (send_buffer le now id seq 128). cbn [fst]. split; [reflexivity|].
  split; [apply mem6_hton, A|]. split; [apply rest_len|apply rest_octets; assumption].
Qed.
Print Assumptions C76_send6.
Theorem C76_roundtrip6 : forall le now now' a id seq to rest c0 c1 sa,
  0 <= now < 2 ^ 64 -> is_u16 id -> is_u16 seq -> ping6_send le now a id seq = (to, 128 :: 0 :: 0 :: 0 :: rest) ->
  ping6_receive le now' sa 64 (129 :: 0 :: c0 :: c1 :: rest) =
    (64, mkreply6 (Some (snd (fst (identify6 le sa)))) (Some 129) (Some 0) (Some id) (Some seq) (Some ((now' - now) mod 2 ^ 64))).
Proof.
  intros le now now' a id seq to rest c0 c1 sa N I S E. unfold ping6_send in E. rewrite (send_buffer le now id seq 128) in E. injection E as _ E. subst rest.
  unfold ping6_receive. cbn [length]. rewrite rest_len. cbn [Nat.sub repeat]. rewrite app_nil_r. cbn [Z.leb Z.ltb Z.compare Pos.compare Pos.compare_cont].
  destruct (rest_read le now id seq [129; 0; c0; c1] eq_refl N) as (F1 & F2 & F3). cbn [app] in F1, F2, F3. rewrite F1, F2, F3. reflexivity.
Qed.
Print Assumptions C76_roundtrip6.
Theorem C76_receive6 : forall le now sa total received t reply,
  total <= 64 -> (0 < total -> Z.of_nat (length received) = total) -> ping6_receive le now sa total received = (t, reply) ->
  (0 < t -> t = 64 /\ total = 64 /\ nth 0 received 0 = 129) /\ (t < 0 -> t = total) /\ (id_6 reply <> None -> nth 0 received 0 = 129).
Proof.
  intros le now sa total received t reply H1 H2 E. unfold ping6_receive in E. destruct (Z.leb_spec total 0) as [L0|L0]; [injection E as <- <-; cbn; split; [lia|]; split; [reflexivity|congruence]|].
  specialize (H2 L0). destruct (Z.ltb_spec total 8) as [L1|L1]; [injection E as <- <-; cbn; split; [lia|]; split; [lia|congruence]|].
  assert (V : octet 0 (received ++ repeat 0 (64 - length received)) = nth 0 received 0) by (unfold octet; rewrite app_nth1 by lia; reflexivity). rewrite V in E.
  destruct (Z.eqb_spec (nth 0 received 0) 129) as [T|T]; cbn [negb] in E; [|injection E as <- <-; cbn; split; [lia|]; split; [lia|congruence]].
  injection E as <- <-. destruct (Z.ltb_spec total 64); cbn [id_6]; (split; [lia|]); (split; [lia|intros _; exact T]).
Qed.
Print Assumptions C76_receive6.

(** But the time of a datagram that is too short is told although it is not in it. *)
Theorem C76_elapsed6_refuted : forall le now sa, 0 <= now < 2 ^ 64 ->
  exists reply, ping6_receive le now sa 8 [129; 0; 0; 0; 0; 0; 0; 0] = (0, reply) /\ elapsed_6 reply = Some now.
Proof.
  intros le now sa H. unfold ping6_receive. cbn [Z.leb Z.ltb Z.compare Pos.compare Pos.compare_cont]. eexists. split; [reflexivity|]. cbn [elapsed_6]. f_equal.
  match goal with |- u64 (now - ?x) = now => replace x with 0 by (destruct le; reflexivity) end. unfold u64. rewrite Z.sub_0_r. apply Z.mod_small. lia.
Qed.
Print Assumptions C76_elapsed6_refuted.

(** A case in which the hypotheses hold. *)
Example C76_example :
  let sa := Inet4 [10; 0; 0; 7] [0; 0] in
  let header := 0x45 :: repeat 0 7 ++ [64] ++ repeat 0 11 in
  exists d rest reply, ping4_send true 1000 167772167 258 3 = Some ([10; 0; 0; 7], d) /\ echo 8 d rest /\ header4 header 64 /\
    echo 0 reply rest /\ octets reply /\ correct reply /\ honest4 84 (header ++ reply) /\
    ping4_receive true 5000 sa 84 (header ++ reply) = Some (64, mkreply (Some 167772167) (Some 0) (Some 0) (Some 258) (Some 3) (Some 64) (Some 4000)).
Proof.
  cbn zeta. set (rest := [2; 1; 3; 0; 232; 3] ++ repeat 0 54).
  exists (8 :: 0 :: 10 :: 251 :: rest), rest, (0 :: 0 :: 18 :: 251 :: rest).
  assert (O : octets (0 :: 0 :: 18 :: 251 :: rest)) by (repeat (apply Forall_cons; [red; lia|]); apply Forall_nil).
  split; [reflexivity|]. split; [eexists _, _; reflexivity|].
  split; [split; [reflexivity|split; [repeat (apply Forall_cons; [red; lia|]); apply Forall_nil|split; reflexivity]]|].
  split; [eexists _, _; reflexivity|]. split; [exact O|]. split; [split; [reflexivity|cbn; lia]|].
  split; [|vm_compute; reflexivity]. split; [lia|]. split; [reflexivity|]. split; [|cbn; lia].
  repeat (apply Forall_cons; [red; lia|]); apply Forall_nil.
Qed.
Print Assumptions C76_example.
