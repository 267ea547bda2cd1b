From Coq Require Import ZArith List Bool Lia.
From Verif Require Import CUtil CInt NumberSpec DecModel DecSpec DecProofs IpcalcModel IpcalcSpec.
Import ListNotations.
Local Open Scope Z_scope.

Definition pack (a : address) : Z := first a + 256 * second a + 65536 * third a + 16777216 * fourth a.
Definition unpack (n : Z) : address := Address (u8 n) (u8 (Z.shiftr n 8)) (u8 (Z.shiftr n 16)) (u8 (Z.shiftr n 24)).
Lemma u8_range n : 0 <= u8 n < 256. Proof. apply Z.mod_pos_bound. reflexivity. Qed.
Lemma unpack_pack a : proper a -> unpack (pack a) = a.
Proof.
  destruct a as [a b c d]. unfold proper, unpack, pack, u8. cbn [first second third fourth]. intros (A & B & C & D). rewrite !Z.shiftr_div_pow2 by lia.
  change (2 ^ 8) with 256. change (2 ^ 16) with 65536. change (2 ^ 24) with 16777216.
  f_equal.
  - replace (a + 256 * b + 65536 * c + 16777216 * d) with (a + (b + 256 * c + 65536 * d) * 256) by lia. rewrite Z.mod_add by lia. apply Z.mod_small; lia.
  - replace (a + 256 * b + 65536 * c + 16777216 * d) with (a + (b + (c + 256 * d) * 256) * 256) by lia. rewrite Z.div_add, Z.div_small by lia. cbn [Z.add]. rewrite Z.mod_add by lia. apply Z.mod_small; lia.
  - replace (a + 256 * b + 65536 * c + 16777216 * d) with (a + 256 * b + (c + d * 256) * 65536) by lia. rewrite Z.div_add, Z.div_small by lia. cbn [Z.add]. rewrite Z.mod_add by lia. apply Z.mod_small; lia.
  - replace (a + 256 * b + 65536 * c + 16777216 * d) with (a + 256 * b + 65536 * c + d * 16777216) by lia. rewrite Z.div_add, Z.div_small by lia. apply Z.mod_small; lia.
Qed.
Lemma ntoa_dotted n : ntoa n = dotted (unpack n).
Proof. unfold ntoa, dotted, unpack. cbn [first second third fourth]. rewrite !number_dec by (match goal with |- context [u8 ?x] => pose proof (u8_range x) end; lia). reflexivity. Qed.
Lemma u8_bit n k i : 0 <= i < 8 -> 0 <= k -> Z.testbit (u8 (Z.shiftr n k)) i = Z.testbit n (i + k).
Proof. intros H K. unfold u8. change 256 with (2 ^ 8). rewrite Z.mod_pow2_bits_low by lia. rewrite Z.shiftr_spec by lia. reflexivity. Qed.
Lemma u8_bit0 n i : 0 <= i < 8 -> Z.testbit (u8 n) i = Z.testbit n i.
Proof. intros H. unfold u8. change 256 with (2 ^ 8). apply Z.mod_pow2_bits_low. lia. Qed.
Lemma merge_bits m x y r : (forall i, 0 <= i < 32 -> Z.testbit r i = if Z.testbit m i then Z.testbit x i else Z.testbit y i) -> merge (unpack m) (unpack x) (unpack y) (unpack r).
Proof.
  intros H. unfold merge, merged, unpack. cbn [first second third fourth]. repeat split; try apply u8_range; intros i Hi; rewrite ?u8_bit, ?u8_bit0 by lia; apply H; lia.
Qed.
Lemma u32_bit n i : 0 <= i < 32 -> Z.testbit (u32 n) i = Z.testbit n i.
Proof. intros H. unfold u32. change 4294967296 with (2 ^ 32). apply Z.mod_pow2_bits_low. lia. Qed.
Lemma host_bits a m h : forall i, 0 <= i < 32 -> Z.testbit (compute [a; m; h]) i = if Z.testbit m i then Z.testbit a i else Z.testbit h i.
Proof.
  intros i H. cbn [compute]. rewrite Z.lor_spec, !Z.land_spec, u32_bit, Z.lnot_spec by lia. destruct (Z.testbit m i), (Z.testbit a i), (Z.testbit h i); reflexivity.
Qed.
Lemma ones_bits i : 0 <= i < 32 -> Z.testbit 4294967295 i = true.
Proof. intros H. change 4294967295 with (Z.ones 32). apply Z.ones_spec_low. exact H. Qed.
Lemma broadcast_bits a m : forall i, 0 <= i < 32 -> Z.testbit (compute [a; m]) i = if Z.testbit m i then Z.testbit a i else Z.testbit 4294967295 i.
Proof.
  intros i H. cbn [compute]. change (u32 (Z.lnot 0)) with 4294967295. rewrite Z.lor_spec, Z.land_spec, Z.lxor_spec, ones_bits by lia. destruct (Z.testbit m i), (Z.testbit a i); reflexivity.
Qed.
Lemma pack_range a : proper a -> 0 <= pack a < 2 ^ 32.
Proof. intros (A & B & C & D). unfold pack. lia. Qed.
Lemma swap_pack a : proper a -> swap32 (pack a) = first a * 16777216 + second a * 65536 + third a * 256 + fourth a.
Proof.
  intros P. rewrite swap32_ok by (apply pack_range; exact P). pose proof (unpack_pack a P) as U. unfold unpack, u8 in U. rewrite !Z.shiftr_div_pow2 in U by lia.
  change (2 ^ 8) with 256 in U. change (2 ^ 16) with 65536 in U. change (2 ^ 24) with 16777216 in U. unfold reversed. cbn [octets_of assemble]. rewrite !Z.div_div by lia. change (256 * 256) with 65536. change (65536 * 256) with 16777216.
  destruct a as [a b c d]. injection U as -> -> -> ->. cbn [first second third fourth]. lia.
Qed.
Lemma top_bits a r : 0 <= a < 256 -> 0 <= r < 16777216 ->
  (Z.land (a * 16777216 + r) 2147483648 =? 0) = (a <? 128) /\ (Z.land (a * 16777216 + r) 3221225472 =? 2147483648) = ((128 <=? a) && (a <? 192)).
Proof.
  intros A R. assert (G : forall k, Z.land (a * 16777216 + r) (k * 16777216) = Z.land a k * 16777216).
  { intros k. change 16777216 with (2 ^ 24). rewrite <- !Z.shiftl_mul_pow2 by lia. apply Z.bits_inj'. intros i Hi. rewrite Z.land_spec, !Z.shiftl_spec by lia. destruct (Z.ltb_spec i 24).
    - rewrite !(Z.testbit_neg_r _ (i - 24)) by lia. apply andb_false_r.
    - rewrite Z.land_spec. f_equal. assert (E : a = Z.shiftr (Z.shiftl a 24 + r) 24) by (rewrite Z.shiftl_mul_pow2, Z.shiftr_div_pow2 by lia; rewrite Z.div_add_l, Z.div_small by lia; lia).
      rewrite E at 2. rewrite Z.shiftr_spec by lia. f_equal. lia. }
  change 2147483648 with (128 * 16777216). change 3221225472 with (192 * 16777216). rewrite !G.
  pose proof (all_below 256 (fun a => Bool.eqb (Z.land a 128 * 16777216 =? 0) (a <? 128) && Bool.eqb (Z.land a 192 * 16777216 =? 128 * 16777216) ((128 <=? a) && (a <? 192))) eq_refl a A) as E. cbv beta in E.
  apply andb_true_iff in E. rewrite !eqb_true_iff in E. exact E.
Qed.
Lemma natural_ok a : proper a -> unpack (compute [pack a]) = natural a.
Proof.
  intros P. cbn [compute]. rewrite swap_pack by exact P. destruct P as (A & B & C & D). destruct (top_bits (first a) (second a * 65536 + third a * 256 + fourth a) A ltac:(lia)) as (E1 & E2).
  rewrite !Z.add_assoc in E1, E2. rewrite E1, E2. unfold natural. destruct (Z.ltb_spec (first a) 128); [reflexivity|]. destruct (Z.leb_spec 128 (first a)); [|lia]. cbn [andb]. destruct (first a <? 192); reflexivity.
Qed.
Lemma ipcalc_run aton args addr : args <> [] -> (length args <= 3)%nat -> args <> [help] -> parse aton args = Some addr -> ipcalc aton args = (ntoa (compute addr) ++ [10], 0).
Proof.
  intros N L H P. unfold ipcalc. assert (E : (match args with [a] => same a [45; 63] | _ => false end) = false).
  { destruct args as [|a [|b args]]; try reflexivity. destruct (same a [45; 63]) eqn:S; [apply same_spec in S; subst a; destruct H; reflexivity|reflexivity]. }
  rewrite E, P. destruct args as [|a args]; [contradiction|]. destruct (Z.leb_spec 1 (Z.of_nat (length (a :: args)))), (Z.leb_spec (Z.of_nat (length (a :: args))) 3); try reflexivity; cbn [length] in *; lia.
Qed.
