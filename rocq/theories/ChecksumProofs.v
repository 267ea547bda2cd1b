From Coq Require Import ZArith List Bool Lia Arith.
From Verif Require Import CInt ChecksumModel ChecksumSpec.
Import ListNotations.
Local Open Scope Z_scope.

(** * Fletcher *)

Lemma fletcher_step_mod a b x :
  is_u8 a -> is_u8 b -> is_u8 x ->
  fletcher_step (a, b) x = ((a + x) mod 255, (b + a + x) mod 255).
Proof.
  unfold is_u8, fletcher_step, u16. cbn [fst snd]. intros.
  assert (Ha : (a + x) mod 65536 = a + x) by (apply Z.mod_small; lia).
  rewrite Ha.
  pose proof (Z.mod_pos_bound (a + x) 255 ltac:(lia)).
  rewrite (Z.mod_small (b + _) 65536) by lia.
  f_equal. rewrite Zplus_mod_idemp_r. f_equal. lia.
Qed.

Lemma fletcher_fold data : forall a b,
  octets data -> is_u8 a -> is_u8 b -> data <> [] ->
  fold_left fletcher_step data (a, b) =
  ((a + sum data) mod 255,
   (b + Z.of_nat (length data) * a + weighted data) mod 255).
Proof.
  induction data as [|x r IH]; intros a b Hd Ha Hb Hne; [congruence|].
  inversion Hd as [|? ? Hx Hr]; subst.
  cbn [fold_left]. rewrite fletcher_step_mod by assumption.
  pose proof (Z.mod_pos_bound (a + x) 255 ltac:(lia)).
  pose proof (Z.mod_pos_bound (b + a + x) 255 ltac:(lia)).
  destruct r as [|y r'].
  - cbn [fold_left sum weighted length]. f_equal; f_equal; lia.
  - rewrite IH by (try assumption; unfold is_u8; try lia; congruence).
    set (r := y :: r') in *. 
    cbn [sum]. change (weighted (x :: r)) with (Z.of_nat (length (x :: r)) * x + weighted r).
    f_equal.
    + rewrite Zplus_mod_idemp_l. f_equal. lia.
    + assert (E : Z.of_nat (length (x :: r)) = Z.of_nat (length r) + 1)
        by (cbn [length]; lia). rewrite E.
      set (n := Z.of_nat (length r)).
      rewrite (Z.mod_eq (b + a + x)), (Z.mod_eq (a + x)) by lia.
      rewrite <- (Z_mod_plus_full (b + (n + 1) * a + ((n + 1) * x + weighted r))
                   (- ((b + a + x) / 255) - n * ((a + x) / 255))).
      f_equal. lia.
Qed.

Lemma fletcher_16_spec data a b :
  octets data -> is_u8 a -> is_u8 b -> data <> [] ->
  fletcher_16 data a b =
  ((a + sum data) mod 255,
   (b + Z.of_nat (length data) * a + weighted data) mod 255).
Proof.
  intros. unfold fletcher_16. rewrite fletcher_fold by assumption. cbn [fst snd].
  unfold u8. f_equal; apply Z.mod_small;
    match goal with |- context[?x mod 255] =>
      pose proof (Z.mod_pos_bound x 255 ltac:(lia)) end; lia.
Qed.

Lemma fletcher_16_nil a b : is_u8 a -> is_u8 b -> fletcher_16 [] a b = (a, b).
Proof.
  unfold is_u8, fletcher_16, u8. intros. cbn. f_equal; apply Z.mod_small; lia.
Qed.

Lemma fletcher_fold_range data : forall a b,
  octets data -> is_u8 a -> is_u8 b ->
  is_u8 (fst (fold_left fletcher_step data (a, b))) /\
  is_u8 (snd (fold_left fletcher_step data (a, b))).
Proof.
  intros a b Hd Ha Hb. destruct data as [|x r]; [split; assumption|].
  rewrite fletcher_fold by (assumption || congruence). cbn [fst snd]. unfold is_u8.
  split; match goal with |- context[?x mod 255] =>
      pose proof (Z.mod_pos_bound x 255 ltac:(lia)) end; lia.
Qed.

Lemma fletcher_16_app d1 d2 a b :
  octets d1 -> octets d2 -> is_u8 a -> is_u8 b ->
  fletcher_16 (d1 ++ d2) a b =
  fletcher_16 d2 (fst (fletcher_16 d1 a b)) (snd (fletcher_16 d1 a b)).
Proof.
  intros H1 H2 Ha Hb. unfold fletcher_16 at 1 3 4.
  cbn [fst snd]. rewrite fold_left_app.
  pose proof (fletcher_fold_range d1 a b H1 Ha Hb) as [R1 R2].
  unfold fletcher_16.
  destruct (fold_left fletcher_step d1 (a, b)) as [a1 b1]. cbn [fst snd] in *.
  assert (Ea : u8 a1 = a1) by (unfold u8, is_u8 in *; apply Z.mod_small; lia).
  assert (Eb : u8 b1 = b1) by (unfold u8, is_u8 in *; apply Z.mod_small; lia).
  rewrite Ea, Eb. reflexivity.
Qed.

Lemma fletcher_16_bound data a b :
  octets data -> is_u8 a -> is_u8 b -> data <> [] ->
  0 <= fst (fletcher_16 data a b) < 255 /\ 0 <= snd (fletcher_16 data a b) < 255.
Proof.
  intros. rewrite fletcher_16_spec by assumption. cbn [fst snd].
  split; apply Z.mod_pos_bound; lia.
Qed.

(** * Kermit *)

Lemma crc_bit_lxor x y : crc_bit (Z.lxor x y) = Z.lxor (crc_bit x) (crc_bit y).
Proof.
  unfold crc_bit.
  assert (Ho : Z.odd (Z.lxor x y) = xorb (Z.odd x) (Z.odd y)).
  { rewrite <- !Z.bit0_odd. apply Z.lxor_spec. }
  rewrite Ho, Z.shiftr_lxor.
  destruct (Z.odd x), (Z.odd y); cbn [xorb];
    apply Z.bits_inj'; intros n Hn; rewrite ?Z.lxor_spec;
    repeat match goal with |- context[Z.testbit ?a ?b] => destruct (Z.testbit a b) end;
    reflexivity.
Qed.

Lemma iter_crc_bit_lxor n : forall x y,
  Nat.iter n crc_bit (Z.lxor x y) = Z.lxor (Nat.iter n crc_bit x) (Nat.iter n crc_bit y).
Proof.
  induction n; intros; cbn [Nat.iter nat_rect]; [reflexivity|].
  unfold Nat.iter in *. cbn. rewrite IHn, crc_bit_lxor. reflexivity.
Qed.

Lemma crc_bit_double z : crc_bit (2 * z) = z.
Proof.
  unfold crc_bit. rewrite Z.odd_mul. cbn [Z.odd andb].
  rewrite Z.shiftr_div_pow2 by lia. change (2 ^ 1) with 2.
  rewrite Z.mul_comm. apply Z.div_mul. lia.
Qed.

Lemma iter_S {A} n (f : A -> A) x : Nat.iter (S n) f x = f (Nat.iter n f x).
Proof. reflexivity. Qed.

Lemma iter_S_in {A} n (f : A -> A) x : Nat.iter (S n) f x = Nat.iter n f (f x).
Proof. induction n; [reflexivity|]. rewrite iter_S, IHn. reflexivity. Qed.

Lemma iter_plus {A} n m (f : A -> A) x : Nat.iter (n + m) f x = Nat.iter n f (Nat.iter m f x).
Proof. induction n; [reflexivity|]. cbn [Nat.add]. rewrite !iter_S, IHn. reflexivity. Qed.

Lemma iter_crc_bit_shift n : forall z, Nat.iter n crc_bit (2 ^ Z.of_nat n * z) = z.
Proof.
  induction n; intros z.
  - cbn. destruct z; reflexivity.
  - rewrite iter_S_in. replace (2 ^ Z.of_nat (S n) * z) with (2 * (2 ^ Z.of_nat n * z)).
    + rewrite crc_bit_double. apply IHn.
    + rewrite Nat2Z.inj_succ, Z.pow_succ_r by lia. lia.
Qed.

Lemma crc_bit_zero : crc_bit 0 = 0.
Proof. reflexivity. Qed.

Lemma crc_bit_range c : is_u16 c -> is_u16 (crc_bit c).
Proof.
  unfold is_u16, crc_bit. intros H.
  assert (Hs : 0 <= Z.shiftr c 1 < 2 ^ 15).
  { rewrite Z.shiftr_div_pow2 by lia. split; [apply Z.div_pos; lia|].
    apply Z.div_lt_upper_bound; lia. }
  destruct (Z.odd c); [|lia].
  split; [apply Z.lxor_nonneg; lia|].
  assert (Z.lxor (Z.shiftr c 1) 0x8408 < 2 ^ 16); [|lia].
  destruct (Z.eq_dec (Z.lxor (Z.shiftr c 1) 0x8408) 0) as [->|N]; [lia|].
  assert (0 <= Z.lxor (Z.shiftr c 1) 0x8408) by (apply Z.lxor_nonneg; lia).
  apply Z.log2_lt_pow2; [lia|].
  eapply Z.le_lt_trans; [apply Z.log2_lxor; lia|].
  apply Z.max_lub_lt.
  - destruct (Z.eq_dec (Z.shiftr c 1) 0) as [->|]; [cbn; lia|].
    apply Z.log2_lt_pow2; lia.
  - cbn. lia.
Qed.

Lemma iter_crc_bit_range n c : is_u16 c -> is_u16 (Nat.iter n crc_bit c).
Proof. intros; induction n; [assumption|]. rewrite iter_S. apply crc_bit_range, IHn. Qed.

(** The whole table agrees with eight bit serial steps. *)
Lemma table_checked :
  forallb (fun i => Z.eqb (nth i TABLE 0) (Nat.iter 8 crc_bit (Z.of_nat i))) (seq 0 256) = true.
Proof. vm_compute. reflexivity. Qed.

Lemma table_spec i : 0 <= i < 256 -> nth (Z.to_nat i) TABLE 0 = Nat.iter 8 crc_bit i.
Proof.
  intros H. pose proof table_checked as T. rewrite forallb_forall in T.
  specialize (T (Z.to_nat i)). rewrite Z2Nat.id in T by lia. apply Z.eqb_eq, T.
  apply in_seq. lia.
Qed.

Lemma split_octet z : 0 <= z -> z = Z.lxor (2 ^ 8 * Z.shiftr z 8) (Z.land z 255).
Proof.
  intros. apply Z.bits_inj'. intros n Hn. rewrite Z.lxor_spec.
  change 255 with (Z.ones 8).
  rewrite Z.mul_comm. destruct (Z.lt_ge_cases n 8).
  - rewrite Z.mul_pow2_bits_low by lia. rewrite Z.land_spec, Z.ones_spec_low by lia.
    rewrite andb_true_r. destruct (Z.testbit z n); reflexivity.
  - rewrite Z.mul_pow2_bits by lia. rewrite Z.shiftr_spec by lia.
    rewrite Z.land_spec, Z.ones_spec_high by lia. rewrite andb_false_r.
    replace (n - 8 + 8) with n by lia. destruct (Z.testbit z n); reflexivity.
Qed.

Lemma land_255_range z : 0 <= Z.land z 255 < 256.
Proof.
  change 255 with (Z.ones 8). rewrite Z.land_ones by lia. apply Z.mod_pos_bound. lia.
Qed.

Lemma shiftr_octet x : is_u8 x -> Z.shiftr x 8 = 0.
Proof.
  unfold is_u8. intros. rewrite Z.shiftr_div_pow2 by lia. apply Z.div_small. lia.
Qed.

Lemma lxor_u16_octet_nonneg c x : is_u16 c -> is_u8 x -> 0 <= Z.lxor c x.
Proof. unfold is_u16, is_u8. intros. apply Z.lxor_nonneg. lia. Qed.

Lemma kermit_step_spec c x : is_u16 c -> is_u8 x -> kermit_step c x = crc_octet c x.
Proof.
  intros Hc Hx. unfold kermit_step, crc_octet.
  pose proof (land_255_range (Z.lxor c x)).
  rewrite table_spec by assumption.
  pose proof (lxor_u16_octet_nonneg c x Hc Hx) as Hn.
  rewrite (split_octet (Z.lxor c x) Hn) at 2.
  rewrite iter_crc_bit_lxor.
  change (2 ^ 8) with (2 ^ Z.of_nat 8). rewrite iter_crc_bit_shift.
  rewrite Z.shiftr_lxor, (shiftr_octet x Hx), Z.lxor_0_r.
  assert (R : is_u16 (Z.lxor (Z.shiftr c 8) (Nat.iter 8 crc_bit (Z.land (Z.lxor c x) 255)))).
  { assert (R1 : is_u16 (Nat.iter 8 crc_bit (Z.land (Z.lxor c x) 255)))
      by (apply iter_crc_bit_range; unfold is_u16; lia).
    unfold is_u16 in *.
    assert (R2 : 0 <= Z.shiftr c 8 < 2 ^ 8).
    { rewrite Z.shiftr_div_pow2 by lia. split; [apply Z.div_pos; lia|].
      apply Z.div_lt_upper_bound; lia. }
    set (p := Z.shiftr c 8) in *. set (q := Nat.iter 8 crc_bit _) in *.
    assert (0 <= Z.lxor p q) by (apply Z.lxor_nonneg; lia).
    split; [lia|].
    destruct (Z.eq_dec (Z.lxor p q) 0) as [->|N]; [lia|].
    change 65536 with (2 ^ 16). apply Z.log2_lt_pow2; [lia|].
    eapply Z.le_lt_trans; [apply Z.log2_lxor; lia|].
    apply Z.max_lub_lt.
    - destruct (Z.eq_dec p 0) as [->|]; [cbn; lia|]. apply Z.log2_lt_pow2; lia.
    - destruct (Z.eq_dec q 0) as [->|]; [cbn; lia|]. apply Z.log2_lt_pow2; lia. }
  unfold u16. unfold is_u16 in R. apply Z.mod_small. lia.
Qed.

Lemma crc_octet_range c x : is_u16 c -> is_u8 x -> is_u16 (crc_octet c x).
Proof.
  intros Hc Hx. rewrite <- kermit_step_spec by assumption.
  unfold kermit_step, is_u16, u16. apply Z.mod_pos_bound. lia.
Qed.

Lemma kermit_16_spec data : forall c,
  octets data -> is_u16 c -> kermit_16 data c = crc_string data c.
Proof.
  unfold kermit_16, crc_string.
  induction data as [|x r IH]; intros c Hd Hc; [reflexivity|].
  inversion Hd; subst. cbn [fold_left]. rewrite kermit_step_spec by assumption.
  apply IH; [assumption|]. apply crc_octet_range; assumption.
Qed.

Lemma crc_string_range data : forall c,
  octets data -> is_u16 c -> is_u16 (crc_string data c).
Proof.
  unfold crc_string. induction data as [|x r IH]; intros c Hd Hc; [exact Hc|].
  inversion Hd; subst. cbn [fold_left]. apply IH; [assumption|].
  apply crc_octet_range; assumption.
Qed.

Lemma kermit_16_range data c : octets data -> is_u16 c -> is_u16 (kermit_16 data c).
Proof. intros. rewrite kermit_16_spec by assumption. apply crc_string_range; assumption. Qed.

Lemma kermit_16_app d1 d2 c : kermit_16 (d1 ++ d2) c = kermit_16 d2 (kermit_16 d1 c).
Proof. unfold kermit_16. apply fold_left_app. Qed.

(** * Burst errors *)

(** The string as one big little endian number. *)
Fixpoint number (m : list Z) : Z :=
  match m with [] => 0 | x :: r => Z.lxor x (2 ^ 8 * number r) end.

Lemma number_nonneg m : octets m -> 0 <= number m.
Proof.
  induction 1 as [|x r Hx Hr IH]; cbn [number]; [lia|]. unfold is_u8 in Hx.
  apply Z.lxor_nonneg. split; intros; lia.
Qed.

Lemma crc_number m : forall c, octets m ->
  Nat.iter (8 * length m) crc_bit (Z.lxor c (number m)) = crc_string m c.
Proof.
  unfold crc_string. induction m as [|x r IH]; intros c Hm.
  - cbn. apply Z.lxor_0_r.
  - inversion Hm; subst. cbn [fold_left number length].
    replace (8 * S (length r))%nat with (8 * length r + 8)%nat by lia.
    rewrite iter_plus. rewrite <- Z.lxor_assoc, iter_crc_bit_lxor.
    change (2 ^ 8) with (2 ^ Z.of_nat 8). rewrite iter_crc_bit_shift.
    apply IH. assumption.
Qed.

Lemma testbit_octet x j : is_u8 x -> 8 <= j -> Z.testbit x j = false.
Proof.
  unfold is_u8. intros. destruct (Z.eq_dec x 0) as [->|]; [apply Z.bits_0|].
  apply Z.bits_above_log2; [lia|]. assert (Z.log2 x < 8); [|lia].
  apply Z.log2_lt_pow2; lia.
Qed.

Lemma number_testbit m : octets m -> forall j,
  Z.testbit (number m) (Z.of_nat j) = message_bit m j.
Proof.
  unfold message_bit. induction 1 as [|x r Hx Hr IH]; intros j.
  - cbn [number]. rewrite Z.bits_0. destruct (j / 8)%nat; cbn [nth]; rewrite Z.bits_0; reflexivity.
  - cbn [number]. rewrite Z.lxor_spec, Z.mul_comm.
    destruct (Nat.lt_ge_cases j 8).
    + rewrite Z.mul_pow2_bits_low by lia. rewrite xorb_false_r.
      rewrite Nat.div_small, Nat.mod_small by lia. reflexivity.
    + rewrite Z.mul_pow2_bits by lia. rewrite testbit_octet by (assumption || lia).
      rewrite xorb_false_l.
      replace (Z.of_nat j - 8) with (Z.of_nat (j - 8)) by lia. rewrite IH.
      replace j with ((j - 8) + 1 * 8)%nat at 3 4 by lia.
      rewrite Nat.div_add, Nat.mod_add by lia.
      rewrite Nat.add_1_r. reflexivity.
Qed.

Lemma octet_bits_eq x y :
  is_u8 x -> is_u8 y -> (forall k, (k < 8)%nat -> Z.testbit x (Z.of_nat k) = Z.testbit y (Z.of_nat k)) -> x = y.
Proof.
  intros Hx Hy H. apply Z.bits_inj'. intros n Hn.
  destruct (Z.lt_ge_cases n 8).
  - rewrite <- (Z2Nat.id n) by lia. apply H. lia.
  - rewrite !testbit_octet by assumption. reflexivity.
Qed.

Lemma message_bits_eq m1 : forall m2,
  octets m1 -> octets m2 -> length m1 = length m2 ->
  (forall j, message_bit m1 j = message_bit m2 j) -> m1 = m2.
Proof.
  induction m1 as [|x r IH]; intros [|y s] H1 H2 HL HB; try discriminate; [reflexivity|].
  inversion H1; inversion H2; subst. f_equal.
  - apply octet_bits_eq; try assumption. intros k Hk. specialize (HB k).
    unfold message_bit in HB. rewrite Nat.div_small, Nat.mod_small in HB by lia. exact HB.
  - apply IH; try assumption; [cbn in HL; lia|]. intros j. specialize (HB (j + 1 * 8)%nat).
    unfold message_bit in *. rewrite !Nat.div_add, !Nat.mod_add in HB by lia.
    rewrite Nat.add_1_r in HB. cbn [nth] in HB. exact HB.
Qed.

(** crc_bit is injective on 16 bit values: its top bit tells the branch. *)
Lemma crc_bit_nonzero c : 0 < c < 2 ^ 16 -> 0 < crc_bit c < 2 ^ 16.
Proof.
  intros H. assert (R : is_u16 (crc_bit c)) by (apply crc_bit_range; unfold is_u16; lia).
  unfold is_u16 in R. split; [|lia].
  assert (crc_bit c <> 0); [|lia]. unfold crc_bit.
  destruct (Z.odd c) eqn:O.
  - intros E. assert (B : Z.testbit (Z.lxor (Z.shiftr c 1) 33800) 15 = false)
      by (rewrite E; apply Z.bits_0).
    rewrite Z.lxor_spec in B. rewrite Z.shiftr_spec in B by lia.
    assert (Z.testbit c (15 + 1) = false) as T.
    { apply Z.bits_above_log2; [lia|]. apply Z.log2_lt_pow2; lia. }
    rewrite T in B. cbn in B. discriminate.
  - intros E. rewrite Z.shiftr_div_pow2 in E by lia. change (2 ^ 1) with 2 in E.
    assert (c < 2) by (pose proof (Z.div_mod c 2); pose proof (Z.mod_pos_bound c 2); lia).
    assert (c = 1) by lia. subst. discriminate.
Qed.

Lemma iter_crc_bit_nonzero n c : 0 < c < 2 ^ 16 -> 0 < Nat.iter n crc_bit c < 2 ^ 16.
Proof. intros; induction n; [assumption|]. rewrite iter_S. apply crc_bit_nonzero, IHn. Qed.

Lemma burst_shape d i :
  0 <= d -> d <> 0 -> 0 <= i ->
  (forall j, 0 <= j -> (j < i \/ i + 16 <= j) -> Z.testbit d j = false) ->
  exists w, d = 2 ^ i * w /\ 0 < w < 2 ^ 16.
Proof.
  intros Hd Hz Hi HB. exists (Z.shiftr d i).
  assert (E : d = 2 ^ i * Z.shiftr d i).
  { apply Z.bits_inj'. intros n Hn. rewrite Z.mul_comm.
    destruct (Z.lt_ge_cases n i).
    - rewrite Z.mul_pow2_bits_low by lia. apply HB; lia.
    - rewrite Z.mul_pow2_bits by lia. rewrite Z.shiftr_spec by lia. f_equal. lia. }
  split; [exact E|].
  assert (0 <= Z.shiftr d i) by (apply Z.shiftr_nonneg; lia).
  assert (Z.shiftr d i <> 0) by (intros X; rewrite X in E; lia).
  split; [lia|].
  apply Z.log2_lt_pow2; [lia|].
  destruct (Z.lt_ge_cases (Z.log2 (Z.shiftr d i)) 16) as [|G]; [assumption|exfalso].
  pose proof (Z.bit_log2 (Z.shiftr d i) ltac:(lia)) as B.
  rewrite Z.shiftr_spec in B by (apply Z.log2_nonneg).
  rewrite HB in B; [discriminate| |]; pose proof (Z.log2_nonneg (Z.shiftr d i)); lia.
Qed.

Lemma kermit_burst m1 m2 c i :
  octets m1 -> octets m2 -> is_u16 c -> length m1 = length m2 -> m1 <> m2 ->
  (forall j, (j < i \/ i + 16 <= j)%nat -> message_bit m1 j = message_bit m2 j) ->
  kermit_16 m1 c <> kermit_16 m2 c.
Proof.
  intros H1 H2 Hc HL HN HB E.
  rewrite !kermit_16_spec in E by assumption.
  rewrite <- !crc_number in E by assumption.
  set (d := Z.lxor (number m1) (number m2)).
  assert (Hd0 : 0 <= d).
  { apply Z.lxor_nonneg. pose proof (number_nonneg m1 H1). pose proof (number_nonneg m2 H2). lia. }
  assert (Hdz : d <> 0).
  { intros X. apply Z.lxor_eq in X. apply HN. apply message_bits_eq; try assumption.
    intros j. rewrite <- !number_testbit by assumption. rewrite X. reflexivity. }
  destruct (burst_shape d (Z.of_nat i) Hd0 Hdz ltac:(lia)) as (w & Ew & Hw).
  { intros j Hj HR. unfold d. rewrite Z.lxor_spec.
    rewrite <- (Z2Nat.id j) by lia. rewrite !number_testbit by assumption.
    rewrite HB by lia. apply xorb_nilpotent. }
  set (n := (8 * length m1)%nat) in *.
  rewrite <- HL in E. fold n in E.
  assert (X : Nat.iter n crc_bit d = 0).
  { unfold d.
    replace (Z.lxor (number m1) (number m2))
      with (Z.lxor (Z.lxor c (number m1)) (Z.lxor c (number m2))).
    - rewrite iter_crc_bit_lxor, E. apply Z.lxor_nilpotent.
    - apply Z.bits_inj'. intros k Hk. rewrite !Z.lxor_spec.
      destruct (Z.testbit c k), (Z.testbit (number m1) k), (Z.testbit (number m2) k); reflexivity. }
  destruct (le_lt_dec i n) as [L|L].
  - replace n with ((n - i) + i)%nat in X by lia. rewrite iter_plus, Ew, iter_crc_bit_shift in X.
    pose proof (iter_crc_bit_nonzero (n - i) w Hw). lia.
  - (* the window starts beyond the string: no difference is possible *)
    apply HN. apply message_bits_eq; try assumption. intros j.
    destruct (lt_dec j i) as [|G]; [apply HB; lia|].
    unfold message_bit. rewrite !nth_overflow; [reflexivity| |].
    + rewrite <- HL. apply Nat.div_le_lower_bound; unfold n in L; lia.
    + apply Nat.div_le_lower_bound; unfold n in L; lia.
Qed.

(** * Printable encoding *)

Definition in_range (lo hi x : Z) : bool := (lo <=? x) && (x <=? hi).

Lemma land_ones_mod x k : 0 <= k -> Z.land x (2 ^ k - 1) = x mod 2 ^ k.
Proof. intros. rewrite <- Z.land_ones by lia. f_equal. rewrite Z.ones_equiv. lia. Qed.

Lemma crc2chars_arith crc : is_u16 crc ->
  crc2chars crc = (crc / 4096 + 32, (crc / 64) mod 64 + 32, crc mod 64 + 32).
Proof.
  unfold is_u16. intros H. unfold crc2chars, tochar, u8.
  change 15 with (2 ^ 4 - 1). change 63 with (2 ^ 6 - 1).
  rewrite !land_ones_mod by lia. rewrite !Z.shiftr_div_pow2 by lia.
  change (2 ^ 12) with 4096. change (2 ^ 6) with 64. change (2 ^ 4) with 16.
  assert (0 <= crc / 4096 < 16)
    by (split; [apply Z.div_pos; lia | apply Z.div_lt_upper_bound; lia]).
  pose proof (Z.mod_pos_bound (crc / 64) 64 ltac:(lia)).
  pose proof (Z.mod_pos_bound crc 64 ltac:(lia)).
  rewrite (Z.mod_small (crc / 4096) 16) by lia.
  rewrite (Z.mod_small (crc / 4096 + 32)), (Z.mod_small ((crc / 64) mod 64 + 32)),
    (Z.mod_small (crc mod 64 + 32)) by lia. reflexivity.
Qed.

Lemma lor_disjoint a b k : 0 <= k -> 0 <= b < 2 ^ k -> Z.lor (a * 2 ^ k) b = a * 2 ^ k + b.
Proof.
  intros Hk Hb.
  rewrite <- Z.lxor_lor.
  - symmetry. apply Z.add_nocarry_lxor.
    apply Z.bits_inj'. intros n Hn. rewrite Z.land_spec, Z.bits_0.
    destruct (Z.lt_ge_cases n k).
    + rewrite Z.mul_pow2_bits_low by lia. reflexivity.
    + replace (Z.testbit b n) with false; [apply andb_false_r|]. symmetry.
      destruct (Z.eq_dec b 0) as [->|]; [apply Z.bits_0|].
      apply Z.bits_above_log2; [lia|].
      assert (Z.log2 b < k) by (apply Z.log2_lt_pow2; lia). lia.
  - apply Z.bits_inj'. intros n Hn. rewrite Z.land_spec, Z.bits_0.
    destruct (Z.lt_ge_cases n k).
    + rewrite Z.mul_pow2_bits_low by lia. reflexivity.
    + replace (Z.testbit b n) with false; [apply andb_false_r|]. symmetry.
      destruct (Z.eq_dec b 0) as [->|]; [apply Z.bits_0|].
      apply Z.bits_above_log2; [lia|].
      assert (Z.log2 b < k) by (apply Z.log2_lt_pow2; lia). lia.
Qed.

Lemma chars2crc_arith a b c :
  32 <= a <= 47 -> 32 <= b <= 95 -> 32 <= c <= 95 ->
  chars2crc a b c = (a - 32) * 4096 + (b - 32) * 64 + (c - 32).
Proof.
  intros Ha Hb Hc. unfold chars2crc, unchar, u16.
  rewrite !Z.shiftl_mul_pow2 by lia.
  rewrite (Z.mod_small (a - 32)), (Z.mod_small (b - 32)), (Z.mod_small (c - 32)) by lia.
  change (2 ^ 12) with 4096. change (2 ^ 6) with 64.
  rewrite (Z.mod_small ((a - 32) * 4096)) by lia.
  replace (Z.lor ((a - 32) * 4096) ((b - 32) * 64))
    with ((a - 32) * 4096 + (b - 32) * 64)
    by (change 4096 with (2 ^ 12) ; rewrite lor_disjoint; lia).
  rewrite (Z.mod_small ((a - 32) * 4096 + (b - 32) * 64) 65536) by lia.
  replace ((a - 32) * 4096 + (b - 32) * 64) with (((a - 32) * 64 + (b - 32)) * 2 ^ 6) by lia.
  rewrite lor_disjoint by lia. rewrite Z.mod_small by lia. lia.
Qed.

Lemma crc2chars_valid crc a b c : is_u16 crc -> crc2chars crc = (a, b, c) ->
  firstisvalid a = true /\ secondisvalid b = true /\ thirdisvalid c = true /\
  32 <= a <= 47 /\ 32 <= b <= 95 /\ 32 <= c <= 95.
Proof.
  intros H E. rewrite crc2chars_arith in E by assumption. injection E as <- <- <-.
  unfold is_u16 in H.
  assert (0 <= crc / 4096 < 16)
    by (split; [apply Z.div_pos; lia | apply Z.div_lt_upper_bound; lia]).
  pose proof (Z.mod_pos_bound (crc / 64) 64 ltac:(lia)).
  pose proof (Z.mod_pos_bound crc 64 ltac:(lia)).
  unfold thirdisvalid, secondisvalid, firstisvalid.
  rewrite !andb_true_iff, !Z.leb_le. lia.
Qed.

Lemma crc_round_trip crc a b c : is_u16 crc -> crc2chars crc = (a, b, c) -> chars2crc a b c = crc.
Proof.
  intros H E. pose proof (crc2chars_valid _ _ _ _ H E) as (_ & _ & _ & ? & ? & ?).
  rewrite chars2crc_arith by assumption.
  rewrite crc2chars_arith in E by assumption. injection E as <- <- <-.
  unfold is_u16 in H.
  pose proof (Z.div_mod crc 64 ltac:(lia)).
  pose proof (Z.div_mod (crc / 64) 64 ltac:(lia)).
  rewrite Z.div_div in * by lia. change (64 * 64) with 4096 in *. lia.
Qed.

Lemma chars_round_trip a b c :
  firstisvalid a = true -> secondisvalid b = true -> thirdisvalid c = true ->
  is_u16 (chars2crc a b c) /\ crc2chars (chars2crc a b c) = (a, b, c).
Proof.
  unfold thirdisvalid, secondisvalid, firstisvalid.
  rewrite !andb_true_iff, !Z.leb_le. intros Ha Hb Hc.
  rewrite chars2crc_arith by lia.
  set (x := (a - 32) * 4096 + (b - 32) * 64 + (c - 32)).
  assert (Hx : is_u16 x) by (unfold is_u16, x; lia).
  split; [exact Hx|]. rewrite crc2chars_arith by exact Hx.
  unfold is_u16 in Hx.
  assert (E1 : x / 64 = (a - 32) * 64 + (b - 32)).
  { symmetry. apply Z.div_unique with (c - 32); unfold x; lia. }
  assert (E2 : x mod 64 = c - 32).
  { symmetry. apply Z.mod_unique with ((a - 32) * 64 + (b - 32)); unfold x; lia. }
  assert (E3 : x / 4096 = a - 32).
  { symmetry. apply Z.div_unique with ((b - 32) * 64 + (c - 32)); unfold x; lia. }
  rewrite E1, E2, E3.
  replace (((a - 32) * 64 + (b - 32)) mod 64) with (b - 32).
  - f_equal; [f_equal|]; lia.
  - apply Z.mod_unique with (a - 32); lia.
Qed.

(** * Fletcher error detection *)

Lemma sum_app l1 l2 : sum (l1 ++ l2) = sum l1 + sum l2.
Proof. induction l1; cbn [app sum]; lia. Qed.

Lemma fletcher_single pre x y post a b :
  octets pre -> octets post -> is_u8 x -> is_u8 y -> is_u8 a -> is_u8 b ->
  x <> y -> ~ (x = 0 /\ y = 255) -> ~ (x = 255 /\ y = 0) ->
  fletcher_16 (pre ++ x :: post) a b <> fletcher_16 (pre ++ y :: post) a b.
Proof.
  intros Hp Hq Hx Hy Ha Hb N1 N2 N3 E.
  assert (O : forall z, is_u8 z -> octets (pre ++ z :: post))
    by (intros; apply Forall_app; split; [assumption|constructor; assumption]).
  rewrite !fletcher_16_spec in E by (auto; destruct pre; discriminate).
  injection E as E _. rewrite !sum_app in E. cbn [sum] in E. unfold is_u8 in *.
  set (s := sum pre) in *. set (t := sum post) in *.
  rewrite !Z.mod_eq in E by lia.
  set (q1 := _ / 255) in E. set (q2 := _ / 255) in E. lia.
Qed.
