(** Proofs about the Internet checksum and echo datagrams. *)

From Coq Require Import ZArith List Bool Lia.
From Verif Require Import CInt CUtil IpModel IpSpec IpProofs PingModel PingSpec.
Import ListNotations.
Local Open Scope Z_scope.

(** A sum in one's complement. *)
Definition fold1 (s : Z) : Z := if s =? 0 then 0 else (s - 1) mod 65535 + 1.

Lemma fold1_range s : 0 <= s -> 0 <= fold1 s <= 65535.
Proof. intros H. unfold fold1. destruct (s =? 0); [lia|]. pose proof (Z.mod_pos_bound (s - 1) 65535 ltac:(lia)). lia. Qed.
Lemma fold1_unique s f : 0 <= s -> 0 <= f <= 65535 -> f mod 65535 = s mod 65535 -> (f = 0 <-> s = 0) -> f = fold1 s.
Proof.
  intros Hs Hf E Hz. unfold fold1. destruct (Z.eqb_spec s 0) as [S|S]; [apply Hz, S|]. assert (F : f <> 0) by (intros K; apply S, Hz, K).
  assert (G : (f - 1) mod 65535 = (s - 1) mod 65535) by (rewrite Zminus_mod, E, <- Zminus_mod; reflexivity).
  rewrite <- G, Z.mod_small by lia. lia.
Qed.
Lemma fold1_mod s : 0 <= s -> fold1 s mod 65535 = s mod 65535.
Proof.
  intros H. unfold fold1. destruct (Z.eqb_spec s 0) as [->|S]; [reflexivity|]. rewrite Zplus_mod_idemp_l. f_equal. lia.
Qed.
Lemma fold1_zero s : 0 <= s -> fold1 s = 0 <-> s = 0.
Proof.
  intros H. unfold fold1. destruct (Z.eqb_spec s 0) as [->|S]; [tauto|]. pose proof (Z.mod_pos_bound (s - 1) 65535 ltac:(lia)). lia.
Qed.
Lemma fold1_full s : 0 <= s -> fold1 s = 65535 <-> (s mod 65535 = 0 /\ s <> 0).
Proof.
  intros H. pose proof (fold1_mod s H) as M. pose proof (fold1_zero s H) as Z0. pose proof (fold1_range s H) as R. split.
  - intros E. rewrite E in M. split; [rewrite <- M; reflexivity|]. intros ->. cbn in E. lia.
  - intros (E & N). rewrite E in M. assert (fold1 s <> 0) by tauto. destruct (Z.eq_dec (fold1 s) 65535) as [|K]; [assumption|]. rewrite Z.mod_small in M by lia. lia.
Qed.
Lemma rfc1071_fold l : rfc1071 l = 65535 - fold1 (words l).
Proof. unfold rfc1071, fold1. destruct (words l =? 0); lia. Qed.

(** The sum in the order of the machine. *)
Fixpoint wsum (le : bool) (l : list Z) : Z :=
  match l with
  | a :: b :: l => load16 le a b + wsum le l
  | [a] => load16 le a 0
  | [] => 0
  end.

Lemma pairs_ind (P : list Z -> Prop) : P [] -> (forall a, P [a]) -> (forall a b l, P l -> P (a :: b :: l)) -> forall l, P l.
Proof. intros H0 H1 H2 l. assert (G : P l /\ forall a, P (a :: l)) by (induction l as [|x l (I1 & I2)]; auto). apply G. Qed.

Lemma wsum_bounds le l : octets l -> 0 <= wsum le l <= 65535 * ((Z.of_nat (length l) + 1) / 2).
Proof.
  induction l as [|a|a b l IH] using pairs_ind; intros O; cbn [wsum length]; [cbn; lia| |].
  - apply Forall_inv in O. unfold is_u8 in O. unfold load16. change ((Z.of_nat 1 + 1) / 2) with 1. destruct le; lia.
  - pose proof (Forall_inv O) as A. apply Forall_inv_tail in O. pose proof (Forall_inv O) as B. apply Forall_inv_tail in O. specialize (IH O).
    replace (Z.of_nat (S (S (length l))) + 1) with (Z.of_nat (length l) + 1 + 1 * 2) by lia. rewrite Z.div_add by lia.
    unfold is_u8 in *. unfold load16. destruct le; lia.
Qed.
Lemma wsum_words l : wsum false l = words l.
Proof. induction l as [|a|a b l IH] using pairs_ind; cbn [wsum words]; unfold load16; lia. Qed.
Lemma wsum_swap l : octets l -> (256 * wsum true l) mod 65535 = words l mod 65535 /\ (wsum true l = 0 <-> words l = 0).
Proof.
  intros O. assert (G : (exists k, 256 * wsum true l = words l + 65535 * k) /\ (wsum true l = 0 <-> words l = 0)).
  { revert O. induction l as [|a|a b l IH] using pairs_ind; intros O; cbn [wsum words]; unfold load16.
    - split; [exists 0; lia|lia].
    - split; [exists 0; lia|lia].
    - pose proof (Forall_inv O) as A. apply Forall_inv_tail in O. pose proof (Forall_inv O) as B. apply Forall_inv_tail in O. destruct (IH O) as ((k & I1) & I2).
      pose proof (wsum_bounds true l O). pose proof (wsum_bounds false l O). rewrite wsum_words in *. unfold is_u8 in *. split; [exists (k + b); lia|lia]. }
  destruct G as ((k & E) & Z0). split; [|exact Z0]. rewrite E. rewrite Z.mul_comm, Z.mod_add by lia. reflexivity.
Qed.

Lemma accumulate_spec le l : forall r acc, octets l -> 0 <= acc -> acc + wsum le l < 2 ^ 32 ->
  accumulate le (l ++ r) (length l) acc = Some (acc + wsum le l).
Proof.
  induction l as [|a|a b l IH] using pairs_ind; intros r acc O A B; cbn [app length accumulate wsum] in *.
  - rewrite Z.add_0_r. destruct r; reflexivity.
  - pose proof (wsum_bounds le [a] O) as W. cbn [wsum] in W. unfold u32. rewrite Z.mod_small by lia. reflexivity.
  - pose proof (Forall_inv_tail (Forall_inv_tail O)) as O'. pose proof (wsum_bounds le l O') as W.
    assert (L : 0 <= load16 le a b) by (pose proof (Forall_inv O) as X; pose proof (Forall_inv (Forall_inv_tail O)) as Y; unfold is_u8 in *; unfold load16; destruct le; lia).
    assert (E : u32 (acc + load16 le a b) = acc + load16 le a b) by (unfold u32; apply Z.mod_small; lia).
    rewrite E, IH by (assumption || lia). f_equal. lia.
Qed.

Lemma carry_step a : 0 <= a < 2 ^ 32 -> u16 (Z.shiftr a 16) = a / 65536 /\ u32 (Z.land a 65535 + a / 65536) = a mod 65536 + a / 65536.
Proof.
  intros H. rewrite Z.shiftr_div_pow2 by lia. change (2 ^ 16) with 65536. pose proof (Z.div_mod a 65536 ltac:(lia)). pose proof (Z.mod_pos_bound a 65536 ltac:(lia)).
  split; [unfold u16; apply Z.mod_small; lia|]. change 65535 with (Z.ones 16). rewrite Z.land_ones by lia. change (2 ^ 16) with 65536. unfold u32. apply Z.mod_small. lia.
Qed.
Lemma carries_spec fuel : forall a, 0 <= a < 2 ^ 32 -> carries fuel a = None \/ carries fuel a = Some (fold1 a).
Proof.
  induction fuel as [|fuel IH]; intros a H; [left; reflexivity|]. cbn [carries]. destruct (carry_step a H) as (-> & ->).
  pose proof (Z.div_mod a 65536 ltac:(lia)). pose proof (Z.mod_pos_bound a 65536 ltac:(lia)).
  destruct (Z.eqb_spec (a / 65536) 0) as [E|E].
  - right. f_equal. apply fold1_unique; lia.
  - destruct (IH (a mod 65536 + a / 65536) ltac:(lia)) as [G|G]; [left; exact G|right]. rewrite G. f_equal. symmetry. apply fold1_unique; [lia|apply fold1_range; lia| |].
    + rewrite fold1_mod by lia. assert (Q : a = a mod 65536 + a / 65536 + (a / 65536) * 65535) by lia.
      assert (Q2 : a mod 65535 = (a mod 65536 + a / 65536) mod 65535) by (rewrite Q at 1; apply Z.mod_add; lia). exact Q2.
    + rewrite fold1_zero by lia. lia.
Qed.
Lemma carries_some a : 0 <= a < 2 ^ 32 -> carries 4 a = Some (fold1 a).
Proof.
  intros H. destruct (carries_spec 4 a H) as [E|E]; [|exact E]. exfalso. revert E.
  set (n := fun a => a mod 65536 + a / 65536).
  assert (S : forall f a, 0 <= a < 2 ^ 32 -> carries (S f) a = if a / 65536 =? 0 then Some a else carries f (n a))
    by (intros f x X; cbn [carries]; destruct (carry_step x X) as (-> & ->); reflexivity).
  assert (N : forall a, 0 <= a < 2 ^ 32 -> 0 <= n a < 2 ^ 32) by (intros x X; unfold n; pose proof (Z.div_mod x 65536 ltac:(lia)); pose proof (Z.mod_pos_bound x 65536 ltac:(lia)); lia).
  assert (N1 : forall a, 0 <= a < 2 ^ 32 -> n a <= 131070) by (intros x X; unfold n; pose proof (Z.div_mod x 65536 ltac:(lia)); pose proof (Z.mod_pos_bound x 65536 ltac:(lia)); lia).
  assert (N2 : forall a, 0 <= a <= 131070 -> n a <= 65535).
  { intros x X. unfold n. pose proof (Z.div_mod x 65536 ltac:(lia)). pose proof (Z.mod_pos_bound x 65536 ltac:(lia)). assert (x / 65536 = 0 \/ x / 65536 = 1) by lia. lia. }
  rewrite S by exact H. destruct (a / 65536 =? 0); [discriminate|].
  pose proof (N a H) as H1. rewrite S by exact H1. destruct (n a / 65536 =? 0); [discriminate|].
  pose proof (N _ H1) as H2. rewrite S by exact H2. pose proof (N2 (n a) ltac:(pose proof (N1 a H); lia)) as B. rewrite (Z.div_small (n (n a))) by lia. discriminate.
Qed.

Lemma lnot_16 f : 0 <= f <= 65535 -> u16 (Z.lnot f) = 65535 - f.
Proof. intros H. unfold u16, Z.lnot. replace (Z.pred (- f)) with (65535 - f + (-1) * 65536) by lia. rewrite Z.mod_add by lia. apply Z.mod_small. lia. Qed.

Lemma checksum_spec le l r : octets l -> Z.of_nat (length l) <= 131074 ->
  inet_checksum le (l ++ r) (Z.of_nat (length l)) = Some (65535 - fold1 (wsum le l)).
Proof.
  intros O L. unfold inet_checksum. rewrite app_length. destruct (Z.ltb_spec (Z.of_nat (length l + length r)) (Z.of_nat (length l))); [lia|].
  pose proof (wsum_bounds le l O) as W. assert (H2 : (Z.of_nat (length l) + 1) / 2 <= 65537) by (apply Z.lt_succ_r, Z.div_lt_upper_bound; lia). rewrite Nat2Z.id. rewrite accumulate_spec by (assumption || lia). cbn [bind]. rewrite Z.add_0_l, carries_some by lia. cbn [bind].
  rewrite lnot_16 by (apply fold1_range; lia). reflexivity.
Qed.

Lemma swap16_fold x : 0 <= x <= 65535 -> swap16 x mod 65535 = (256 * x) mod 65535 /\ 0 <= swap16 x <= 65535 /\ (swap16 x = 0 <-> x = 0).
Proof.
  intros H. unfold swap16. pose proof (Z.div_mod x 256 ltac:(lia)). pose proof (Z.mod_pos_bound x 256 ltac:(lia)). split; [|lia].
  assert (Q : 256 * x = x mod 256 * 256 + x / 256 + (x / 256) * 65535) by lia. rewrite Q, Z.mod_add by lia. reflexivity.
Qed.

Lemma stored_spec le l : octets l -> store16 le (65535 - fold1 (wsum le l)) = wire (rfc1071 l).
Proof.
  intros O. rewrite rfc1071_fold. pose proof (wsum_bounds le l O) as W. pose proof (fold1_range (wsum le l) ltac:(lia)) as R. destruct le; [|rewrite wsum_words; reflexivity].
  pose proof (wsum_bounds false l O) as W2. rewrite wsum_words in W2. destruct (wsum_swap l O) as (M & Z0).
  assert (E : swap16 (fold1 (wsum true l)) = fold1 (words l)).
  { destruct (swap16_fold _ R) as (S1 & S2 & S3). apply fold1_unique; [lia|exact S2| |].
    - rewrite S1, <- M, <- Zmult_mod_idemp_r, fold1_mod, Zmult_mod_idemp_r by lia. reflexivity.
    - rewrite S3, fold1_zero by lia. exact Z0. }
  rewrite <- E. set (f := fold1 (wsum true l)) in *. unfold store16, wire, swap16. pose proof (Z.div_mod f 256 ltac:(lia)). pose proof (Z.mod_pos_bound f 256 ltac:(lia)).
  f_equal; [|f_equal].
  - replace (65535 - f) with (255 - f mod 256 + (255 - f / 256) * 256) by lia. rewrite Z.mod_add, Z.mod_small by lia.
    replace (65535 - (f mod 256 * 256 + f / 256)) with (255 - f / 256 + (255 - f mod 256) * 256) by lia. rewrite Z.div_add, Z.div_small by lia. lia.
  - replace (65535 - f) with (255 - f mod 256 + (255 - f / 256) * 256) by lia. rewrite Z.div_add, Z.div_small by lia.
    replace (65535 - (f mod 256 * 256 + f / 256)) with (255 - f / 256 + (255 - f mod 256) * 256) by lia. rewrite Z.mod_add, Z.mod_small by lia. lia.
Qed.

Lemma words_app p : forall s, Nat.Even (length p) -> words (p ++ s) = words p + words s.
Proof.
  induction p as [|a|a b p IH] using pairs_ind; intros s E; cbn [app words].
  - lia.
  - destruct E as (k & E). cbn in E. lia.
  - rewrite IH; [lia|]. destruct E as (k & E). exists (k - 1)%nat. cbn [length] in E. lia.
Qed.
Lemma words_nonneg l : octets l -> 0 <= words l.
Proof. intros O. pose proof (wsum_bounds false l O). rewrite wsum_words in *. lia. Qed.
Lemma rfc1071_range l : octets l -> 0 <= rfc1071 l <= 65535.
Proof. intros O. rewrite rfc1071_fold. pose proof (fold1_range (words l) (words_nonneg l O)). lia. Qed.
Lemma wire_words x : 0 <= x <= 65535 -> words (wire x) = x /\ octets (wire x).
Proof.
  intros H. pose proof (Z.div_mod x 256 ltac:(lia)). pose proof (Z.mod_pos_bound x 256 ltac:(lia)). unfold wire. cbn [words]. split; [lia|].
  repeat (apply Forall_cons; [red; lia|]); apply Forall_nil.
Qed.

Lemma correct_field p s : octets (p ++ s) -> Nat.Even (length p) -> correct (p ++ wire (rfc1071 (p ++ [0; 0] ++ s)) ++ s).
Proof.
  intros O E. apply Forall_app in O. destruct O as (O1 & O2).
  assert (O3 : octets (p ++ [0; 0] ++ s)) by (apply Forall_app; split; [exact O1|]; apply Forall_app; split; [repeat (apply Forall_cons; [red; lia|]); apply Forall_nil|exact O2]).
  pose proof (words_nonneg _ O3) as N. pose proof (rfc1071_range _ O3) as R. destruct (wire_words _ R) as (W & _).
  unfold correct. rewrite words_app by exact E. rewrite (words_app (wire _)) by (exists 1%nat; reflexivity). rewrite W.
  rewrite words_app in N by exact E. rewrite rfc1071_fold in *. rewrite (words_app p ([0; 0] ++ s)) in * by exact E. change (words ([0; 0] ++ s)) with (words s) in *.
  set (S := words p + words s) in *. replace (words p + (65535 - fold1 S + words s)) with (S - fold1 S + 1 * 65535) by lia. pose proof (fold1_range S N). split.
  - rewrite Z.mod_add by lia. rewrite Zminus_mod, fold1_mod, Z.sub_diag by lia. reflexivity.
  - unfold fold1 in *. destruct (Z.eqb_spec S 0); lia.
Qed.

Lemma checksum_zero le l r : octets l -> Z.of_nat (length l) <= 131074 ->
  exists c, inet_checksum le (l ++ r) (Z.of_nat (length l)) = Some c /\ (c = 0 <-> correct l).
Proof.
  intros O L. rewrite checksum_spec by assumption. eexists. split; [reflexivity|]. unfold correct. pose proof (wsum_bounds le l O) as W. pose proof (words_nonneg l O).
  rewrite <- fold1_full by lia.
  destruct le; [|rewrite wsum_words; lia]. destruct (wsum_swap l O) as (M & Z0). rewrite !fold1_full in * by lia.
  assert (X : 65535 - fold1 (wsum true l) = 0 <-> fold1 (wsum true l) = 65535) by lia. rewrite X, fold1_full by lia.
  rewrite <- Z0, <- M. split; intros (A & B); (split; [|exact B]).
  - rewrite <- Zmult_mod_idemp_r, A. reflexivity.
  - assert (Y : (256 * (256 * wsum true l)) mod 65535 = 0) by (rewrite <- Zmult_mod_idemp_r, A; reflexivity).
    replace (256 * (256 * wsum true l)) with (wsum true l + wsum true l * 65535) in Y by lia. rewrite Z.mod_add in Y by lia. exact Y.
Qed.

(** Times. *)
Lemma load64_store64 le x : 0 <= x < 2 ^ 64 -> load64 le (store64 le x) = x.
Proof.
  intros H. unfold load64, store64. assert (E : forall l : list Z, (if le then rev (if le then rev l else l) else (if le then rev l else l)) = l) by (destruct le; intros l; [apply rev_involutive|reflexivity]).
  rewrite E. cbn [fold_left].
  assert (D : forall a, a = 256 * (a / 256) + a mod 256) by (intros a; apply Z.div_mod; lia).
  assert (Q : forall k, 0 <= k -> x / 2 ^ (k + 8) = x / 2 ^ k / 256) by (intros k K; rewrite Z.pow_add_r by lia; rewrite Z.div_div by lia; reflexivity).
  rewrite (Q 48 ltac:(lia) : x / 2 ^ 56 = _), (Q 40 ltac:(lia) : x / 2 ^ 48 = _), (Q 32 ltac:(lia) : x / 2 ^ 40 = _), (Q 24 ltac:(lia) : x / 2 ^ 32 = _),
    (Q 16 ltac:(lia) : x / 2 ^ 24 = _), (Q 8 ltac:(lia) : x / 2 ^ 16 = _), (Q 0 ltac:(lia) : x / 2 ^ 8 = _). change (2 ^ 0) with 1. rewrite Z.div_1_r.
  pose proof (D x). pose proof (D (x / 256)). pose proof (D (x / 256 / 256)). pose proof (D (x / 256 / 256 / 256)). pose proof (D (x / 256 / 256 / 256 / 256)).
  pose proof (D (x / 256 / 256 / 256 / 256 / 256)). pose proof (D (x / 256 / 256 / 256 / 256 / 256 / 256)). lia.
Qed.
Lemma store64_octets le x : 0 <= x < 2 ^ 64 -> octets (store64 le x).
Proof.
  intros H. assert (G : octets [x / 2 ^ 56; x / 2 ^ 48 mod 256; x / 2 ^ 40 mod 256; x / 2 ^ 32 mod 256; x / 2 ^ 24 mod 256; x / 2 ^ 16 mod 256; x / 2 ^ 8 mod 256; x mod 256]).
  { assert (M : forall y, is_u8 (y mod 256)) by (intros y; red; pose proof (Z.mod_pos_bound y 256); lia).
    apply Forall_cons; [red|repeat (apply Forall_cons; [apply M|]); apply Forall_nil]. split; [apply Z.div_pos; lia|]. assert (x / 2 ^ 56 < 256) by (apply Z.div_lt_upper_bound; lia). lia. }
  unfold store64. destruct le; [apply Forall_rev|]; exact G.
Qed.
Lemma store64_len le x : length (store64 le x) = 8%nat.
Proof. unfold store64. destruct le; reflexivity. Qed.
Lemma store16_octets le x : is_u16 x -> octets (store16 le x).
Proof.
  intros H. unfold is_u16 in H. unfold store16. pose proof (Z.div_mod x 256 ltac:(lia)). pose proof (Z.mod_pos_bound x 256 ltac:(lia)).
  destruct le; repeat (apply Forall_cons; [red; lia|]); apply Forall_nil.
Qed.
Lemma field16_store16 le x : field16 le (store16 le x) = x.
Proof. unfold field16, store16, load16. pose proof (Z.div_mod x 256 ltac:(lia)). destruct le; cbn [nth]; lia. Qed.

(** The rest of a request: identifier, sequence number, time, and zeros. *)
Definition rest_of (le : bool) (now id seq : Z) : list Z := store16 le id ++ store16 le seq ++ store64 le now ++ repeat 0 48.
Lemma rest_octets le now id seq : 0 <= now < 2 ^ 64 -> is_u16 id -> is_u16 seq -> octets (rest_of le now id seq).
Proof.
  intros N I S. unfold rest_of, octets. rewrite !Forall_app. split; [apply store16_octets, I|]. split; [apply store16_octets, S|]. split; [apply store64_octets, N|].
  apply Forall_forall. intros x X. apply repeat_spec in X. subst x. red. lia.
Qed.
Lemma rest_len le now id seq : length (rest_of le now id seq) = 60%nat.
Proof. unfold rest_of. rewrite !app_length, !store16_len, store64_len, repeat_length. reflexivity. Qed.
Lemma rest_read le now id seq h : length h = 4%nat -> 0 <= now < 2 ^ 64 ->
  let d := h ++ rest_of le now id seq in
  field16 le (get 4 2 d) = id /\ field16 le (get 6 2 d) = seq /\ load64 le (get 8 8 d) = now.
Proof.
  intros L N. cbn zeta. destruct h as [|h0 [|h1 [|h2 [|h3 [|]]]]]; try discriminate L. unfold rest_of.
  pose proof (field16_store16 le id) as F1. pose proof (field16_store16 le seq) as F2. pose proof (load64_store64 le now N) as F3.
  pose proof (store16_len le id) as L1. pose proof (store16_len le seq) as L2. pose proof (store64_len le now) as L3.
  destruct (store16 le id) as [|i0 [|i1 [|]]]; try discriminate L1. destruct (store16 le seq) as [|s0 [|s1 [|]]]; try discriminate L2.
  destruct (store64 le now) as [|t0 [|t1 [|t2 [|t3 [|t4 [|t5 [|t6 [|t7 [|]]]]]]]]]; try discriminate L3.
  unfold get. cbn [app skipn firstn]. split; [exact F1|]. split; [exact F2|exact F3].
Qed.

Lemma send_buffer le now id seq type :
  put 8 (store64 le now) (put 6 (store16 le seq) (put 4 (store16 le id) (put 0 [type] (repeat 0 64)))) = type :: 0 :: 0 :: 0 :: rest_of le now id seq.
Proof.
  unfold put, rest_of. rewrite !store16_len, store64_len. change (repeat 0 64) with (repeat 0 8 ++ repeat 0 8 ++ repeat 0 48).
  pose proof (store16_len le id) as L1. pose proof (store16_len le seq) as L2. 
  destruct (store16 le id) as [|i0 [|i1 [|]]]; try discriminate L1. destruct (store16 le seq) as [|s0 [|s1 [|]]]; try discriminate L2. reflexivity.
Qed.
