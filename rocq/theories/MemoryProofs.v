From Coq Require Import ZArith List Bool Lia.
From Verif Require Import CInt MemoryModel MemorySpec.
Import ListNotations.
Local Open Scope Z_scope.

Lemma shiftl1 x : Z.shiftl x 1 = 2 * x.
Proof. rewrite Z.shiftl_mul_pow2 by lia. lia. Qed.

Lemma power_ok : forall fuel k a, 0 <= k -> Z.of_nat fuel = 64 - k -> 0 <= a ->
  (k = 0 \/ 2 ^ (k - 1) < a) -> a <= 2 ^ 63 ->
  exists j, k <= j <= 63 /\ power_loop fuel (2 ^ k) a = Some (2 ^ j) /\ a <= 2 ^ j /\ (j = 0 \/ 2 ^ (j - 1) < a).
Proof.
  induction fuel as [|fuel IH]; intros k a Hk Hf Ha Hlow Hhigh.
  - assert (k = 64) by lia. subst k. destruct Hlow as [?|L]; [lia|].
    assert (2 ^ (64 - 1) = 9223372036854775808) by reflexivity.
    assert (2 ^ 63 = 9223372036854775808) by reflexivity. lia.
  - cbn [power_loop]. assert (0 < 2 ^ k) by (apply Z.pow_pos_nonneg; lia).
    destruct (Z.ltb_spec 0 (2 ^ k)); [|lia]. destruct (Z.ltb_spec (2 ^ k) a) as [L|L]; cbn [andb].
    + assert (K : k < 63).
      { destruct (Z.lt_ge_cases k 63); [lia|]. assert (2 ^ 63 <= 2 ^ k) by (apply Z.pow_le_mono_r; lia). lia. }
      assert (E : u64 (Z.shiftl (2 ^ k) 1) = 2 ^ (k + 1)).
      { rewrite shiftl1, Z.pow_add_r by lia. unfold u64. rewrite Z.mod_small; [lia|].
        assert (2 ^ k <= 2 ^ 62) by (apply Z.pow_le_mono_r; lia).
        assert (2 ^ 62 = 4611686018427387904) by reflexivity. lia. }
      rewrite E. destruct (IH (k + 1) a) as (j & J1 & J2 & J3 & J4); try lia.
      { right. replace (k + 1 - 1) with k by lia. exact L. }
      exists j. repeat split; auto; lia.
    + exists k. assert (k <= 63).
      { destruct (Z.le_gt_cases k 63); [lia|]. destruct Hlow; [lia|].
        assert (2 ^ 63 <= 2 ^ (k - 1)) by (apply Z.pow_le_mono_r; lia). lia. }
      repeat split; auto; lia.
Qed.

Lemma power_least a : 0 <= a <= 2 ^ 63 -> exists p, power a = Some p /\ power_of_two p /\ a <= p /\
  forall p', power_of_two p' -> a <= p' -> p <= p'.
Proof.
  intros H. destruct (power_ok 64 0 a) as (j & J1 & J2 & J3 & J4); try lia.
  exists (2 ^ j). split; [exact J2|]. split; [exists j; split; [lia|reflexivity]|]. split; [exact J3|].
  intros p' (i & Hi & ->) L. destruct J4 as [->|J4]; [apply Z.pow_le_mono_r; lia|].
  apply Z.pow_le_mono_r; [lia|]. destruct (Z.le_gt_cases j i); [lia|].
  assert (2 ^ i <= 2 ^ (j - 1)) by (apply Z.pow_le_mono_r; lia). lia.
Qed.

Lemma power_overflow_ok : forall fuel k a, 0 <= k -> Z.of_nat fuel = 64 - k -> 2 ^ 63 < a -> k <= 63 ->
  power_loop fuel (2 ^ k) a = Some 0.
Proof.
  induction fuel as [|fuel IH]; intros k a Hk Hf Ha Hh; [lia|].
  cbn [power_loop]. assert (0 < 2 ^ k) by (apply Z.pow_pos_nonneg; lia).
  assert (2 ^ k <= 2 ^ 63) by (apply Z.pow_le_mono_r; lia).
  destruct (Z.ltb_spec 0 (2 ^ k)); [|lia]. destruct (Z.ltb_spec (2 ^ k) a); [|lia]. cbn [andb].
  destruct (Z.eq_dec k 63) as [->|N].
  - replace (u64 (Z.shiftl (2 ^ 63) 1)) with 0 by reflexivity. destruct fuel; reflexivity.
  - assert (E : u64 (Z.shiftl (2 ^ k) 1) = 2 ^ (k + 1)).
    { rewrite shiftl1, Z.pow_add_r by lia. unfold u64. rewrite Z.mod_small; [lia|].
      assert (2 ^ k <= 2 ^ 62) by (apply Z.pow_le_mono_r; lia).
      assert (2 ^ 62 = 4611686018427387904) by reflexivity. lia. }
    rewrite E. apply IH; lia.
Qed.

(** Number of one bits among the low [n] bits. *)
Fixpoint ones (n : nat) (x : Z) : Z :=
  match n with O => 0 | S n => Z.b2z (Z.odd x) + ones n (Z.div2 x) end.

Lemma ones_0 : forall n, ones n 0 = 0.
Proof. induction n as [|n IH]; [reflexivity|]. cbn [ones]. change (Z.div2 0) with 0. rewrite IH. reflexivity. Qed.

Lemma is_power_loop_ones : forall n bits x, 0 <= x < 2 ^ Z.of_nat n ->
  is_power_loop n bits x = Some (bits + ones n x).
Proof.
  induction n as [|n IH]; intros bits x Hx.
  - cbn in Hx. assert (x = 0) by lia. subst x. cbn. f_equal. lia.
  - cbn [is_power_loop ones]. destruct (Z.ltb_spec 0 x) as [L|L].
    + rewrite Z.shiftr_div_pow2 by lia. change (2 ^ 1) with 2. rewrite <- Z.div2_div.
      rewrite IH.
      * f_equal. change (Z.land x 1) with (Z.land x (Z.ones 1)). rewrite Z.land_ones by lia. change (2 ^ 1) with 2.
        rewrite Zmod_odd. destruct (Z.odd x); cbn [negb Z.eqb Z.b2z]; lia.
      * rewrite Nat2Z.inj_succ, Z.pow_succ_r in Hx by lia. rewrite Z.div2_div. split; [apply Z.div_pos; lia|].
        apply Z.div_lt_upper_bound; lia.
    + assert (x = 0) by lia. subst x. f_equal. cbn [Z.odd Z.b2z Z.div2].
      rewrite ones_0. lia.
Qed.

Lemma ones_nonneg : forall n x, 0 <= ones n x.
Proof. induction n; intros x; cbn [ones]; [lia|]. specialize (IHn (Z.div2 x)). destruct (Z.odd x); cbn [Z.b2z]; lia. Qed.

Lemma ones_zero : forall n x, 0 <= x < 2 ^ Z.of_nat n -> ones n x = 0 -> x = 0.
Proof.
  induction n as [|n IH]; intros x Hx H; [cbn in Hx; lia|]. cbn [ones] in H.
  pose proof (ones_nonneg n (Z.div2 x)). pose proof (Z.div2_odd x) as D.
  rewrite Nat2Z.inj_succ, Z.pow_succ_r in Hx by lia.
  destruct (Z.odd x); cbn [Z.b2z] in *; [lia|]. assert (Z.div2 x = 0); [|lia]. apply IH; lia.
Qed.

Lemma ones_one : forall n x, 0 <= x < 2 ^ Z.of_nat n -> ones n x = 1 -> power_of_two x.
Proof.
  induction n as [|n IH]; intros x Hx H; [cbn in H; lia|]. cbn [ones] in H.
  pose proof (ones_nonneg n (Z.div2 x)). pose proof (Z.div2_odd x) as D.
  rewrite Nat2Z.inj_succ, Z.pow_succ_r in Hx by lia.
  destruct (Z.odd x) eqn:O; cbn [Z.b2z] in *.
  - assert (Z.div2 x = 0) by (apply (ones_zero n); lia). exists 0. split; [lia|]. cbn. lia.
  - destruct (IH (Z.div2 x)) as (k & Hk & E); try lia. exists (k + 1). split; [lia|].
    rewrite Z.pow_add_r by lia. change (2 ^ 1) with 2. lia.
Qed.

Lemma ones_pow : forall n k, 0 <= k < Z.of_nat n -> ones n (2 ^ k) = 1.
Proof.
  induction n as [|n IH]; intros k Hk; [lia|]. cbn [ones].
  destruct (Z.eq_dec k 0) as [->|N].
  - cbn [Z.pow Z.pow_pos Z.odd Z.b2z]. change (Z.div2 (2 ^ 0)) with 0. rewrite ones_0. reflexivity.
  - assert (E : 2 ^ k = 2 * 2 ^ (k - 1)) by (rewrite <- Z.pow_succ_r by lia; f_equal; lia).
    rewrite E. rewrite Z.odd_mul. cbn [Z.odd andb Z.b2z]. rewrite Z.div2_div, Z.mul_comm, Z.div_mul by lia.
    rewrite IH; lia.
Qed.

Lemma is_power_spec x : is_u64 x -> exists b, is_power x = Some b /\ (b = true <-> power_of_two x).
Proof.
  intros H. unfold is_power. rewrite is_power_loop_ones by (exact H). cbn [option_map]. eexists. split; [reflexivity|].
  rewrite Z.eqb_eq, Z.add_0_l. split.
  - apply ones_one. exact H.
  - intros (k & Hk & ->). apply ones_pow. split; [lia|].
    destruct (Z.lt_ge_cases k (Z.of_nat 64)); [lia|]. red in H. 
    assert (2 ^ 64 <= 2 ^ k) by (apply Z.pow_le_mono_r; lia). change (2 ^ 64) with 18446744073709551616 in *. lia.
Qed.

(** Masking with the complement of 2^k - 1. *)
Lemma mask_down x k : 0 <= k <= 64 -> 0 <= x < 2 ^ 64 ->
  Z.land x (u64 (Z.lnot (2 ^ k - 1))) = 2 ^ k * (x / 2 ^ k).
Proof.
  intros Hk Hx.
  assert (E : Z.land x (u64 (Z.lnot (2 ^ k - 1))) = Z.ldiff x (Z.ones k)).
  { rewrite Z.ones_equiv. apply Z.bits_inj'. intros n Hn. rewrite Z.land_spec, Z.ldiff_spec.
    unfold u64. change 18446744073709551616 with (2 ^ 64).
    rewrite <- Z.sub_1_r. destruct (Z.lt_ge_cases n 64).
    - rewrite Z.mod_pow2_bits_low by lia. rewrite Z.lnot_spec by lia. reflexivity.
    - rewrite (Z.bits_above_log2 x n); [reflexivity|lia|].
      destruct (Z.eq_dec x 0) as [->|]; [cbn; lia|]. apply Z.log2_lt_pow2; [lia|].
      apply Z.lt_le_trans with (2 ^ 64); [lia|]. apply Z.pow_le_mono_r; lia. }
  rewrite E, Z.ldiff_ones_r by lia. rewrite Z.shiftl_mul_pow2, Z.shiftr_div_pow2 by lia. lia.
Qed.

Lemma alignment_least size align : 0 <= size -> power_of_two align -> size + align <= 2 ^ 64 ->
  least_multiple size align (alignment size align).
Proof.
  intros Hs (k & Hk & ->) Ho. assert (P : 0 < 2 ^ k) by (apply Z.pow_pos_nonneg; lia).
  assert (K : k <= 64).
  { destruct (Z.le_gt_cases k 64); [lia|]. assert (2 ^ 65 <= 2 ^ k) by (apply Z.pow_le_mono_r; lia).
    change (2 ^ 65) with (2 * 2 ^ 64) in *. change (2 ^ 64) with 18446744073709551616 in *. lia. }
  assert (E : alignment size (2 ^ k) = 2 ^ k * ((size + (2 ^ k - 1)) / 2 ^ k)).
  { unfold alignment. change (2 ^ 64) with 18446744073709551616 in *.
    assert (A : u64 (2 ^ k - 1) = 2 ^ k - 1) by (unfold u64; rewrite Z.mod_small; lia).
    rewrite A. assert (B : u64 (size + (2 ^ k - 1)) = size + (2 ^ k - 1)) by (unfold u64; rewrite Z.mod_small; lia).
    rewrite B. apply mask_down; [lia|]. change (2 ^ 64) with 18446744073709551616. lia. }
  rewrite E. set (q := (size + (2 ^ k - 1)) / 2 ^ k).
  pose proof (Z.div_mod (size + (2 ^ k - 1)) (2 ^ k) ltac:(lia)) as D. fold q in D.
  pose proof (Z.mod_pos_bound (size + (2 ^ k - 1)) (2 ^ k) P) as M.
  split; [exists q; lia|]. split; [lia|].
  intros m (c & ->) Hm. assert (2 ^ k * q < 2 ^ k * (c + 1)) by lia.
  assert (q < c + 1) by nia. nia.
Qed.

Lemma lm_unique x n m m' : least_multiple x n m -> least_multiple x n m' -> m = m'.
Proof. intros (A & B & C) (A' & B' & C'). pose proof (C _ A' B'). pose proof (C' _ A B). lia. Qed.

Lemma p8 : power_of_two 8. Proof. exists 3. split; [lia|reflexivity]. Qed.

Lemma align_pointer align : power_of_two align -> align <= 2 ^ 63 -> alignment align pointer_size = Z.max align 8.
Proof.
  intros (k & Hk & ->) H. change pointer_size with 8.
  assert (0 < 2 ^ k) by (apply Z.pow_pos_nonneg; lia).
  assert (L : least_multiple (2 ^ k) 8 (alignment (2 ^ k) 8)).
  { apply alignment_least; [lia|exact p8|]. change (2 ^ 64) with 18446744073709551616. change (2 ^ 63) with 9223372036854775808 in H. lia. }
  apply (lm_unique _ _ _ _ L). destruct (Z.lt_ge_cases k 3) as [S|S].
  - assert (2 ^ k <= 2 ^ 2) by (apply Z.pow_le_mono_r; lia). change (2 ^ 2) with 4 in *. rewrite Z.max_r by lia.
    split; [exists 1; lia|]. split; [lia|]. intros m (c & ->) Hm. lia.
  - assert (D : 2 ^ k = 2 ^ (k - 3) * 8) by (change 8 with (2 ^ 3); rewrite <- Z.pow_add_r by lia; f_equal; lia).
    assert (0 < 2 ^ (k - 3)) by (apply Z.pow_pos_nonneg; lia).
    rewrite Z.max_l by lia. split; [exists (2 ^ (k - 3)); lia|]. split; [lia|]. auto.
Qed.

Lemma pow_max_8 align : power_of_two align -> power_of_two (Z.max align 8) /\ (align | Z.max align 8) /\ (8 | Z.max align 8).
Proof.
  intros (k & Hk & ->). assert (0 < 2 ^ k) by (apply Z.pow_pos_nonneg; lia).
  destruct (Z.lt_ge_cases k 3) as [S|S].
  - assert (2 ^ k <= 2 ^ 2) by (apply Z.pow_le_mono_r; lia). change (2 ^ 2) with 4 in *. rewrite Z.max_r by lia.
    split; [exact p8|]. split; [|exists 1; lia]. exists (2 ^ (3 - k)). rewrite <- Z.pow_add_r by lia.
    change 8 with (2 ^ 3). f_equal. lia.
  - assert (2 ^ 3 <= 2 ^ k) by (apply Z.pow_le_mono_r; lia). change (2 ^ 3) with 8 in *. rewrite Z.max_l by lia.
    split; [exists k; auto|]. split; [exists 1; lia|]. exists (2 ^ (k - 3)). change 8 with (2 ^ 3).
    rewrite <- Z.pow_add_r by lia. f_equal. lia.
Qed.

Lemma aligned_args memalign align size : power_of_two align -> align <= 2 ^ 63 -> 0 <= size ->
  size + Z.max align 8 <= 2 ^ 64 ->
  exists size', least_multiple size (Z.max align 8) size' /\
    aligned memalign align size =
    (let '(rc, pointer) := memalign (Z.max align 8) size' in
     if rc >? 0 then (0, Some rc) else if rc <? 0 then (0, Some (- rc))
     else if pointer =? 0 then (0, Some 14) else (pointer, None)).
Proof.
  intros Ha Hb Hs Ho. destruct (pow_max_8 align Ha) as (P & _).
  exists (alignment size (Z.max align 8)). split; [apply alignment_least; assumption|].
  unfold aligned. rewrite (align_pointer align Ha Hb). reflexivity.
Qed.

Lemma aligned_result memalign align size : posix memalign -> power_of_two align -> align <= 2 ^ 63 -> 0 <= size ->
  size + Z.max align 8 <= 2 ^ 64 ->
  let '(pointer, err) := aligned memalign align size in
  (pointer <> 0 /\ err = None /\ (align | pointer)) \/ (pointer = 0 /\ exists e, err = Some e /\ 0 < e).
Proof.
  intros Hp Ha Hb Hs Ho. destruct (aligned_args memalign align size Ha Hb Hs Ho) as (size' & _ & ->).
  specialize (Hp (Z.max align 8) size'). destruct (memalign _ _) as [rc pointer]. destruct Hp as (H1 & H2).
  destruct (rc >? 0) eqn:G; [right; split; [reflexivity|]; exists rc; split; [reflexivity|]; apply Z.gtb_lt in G; lia|].
  destruct (Z.ltb_spec rc 0); [lia|]. assert (rc = 0) by (rewrite Z.gtb_ltb in G; apply Z.ltb_ge in G; lia).
  destruct (H1 H0) as (_ & _ & N & D). destruct (Z.eqb_spec pointer 0); [contradiction|].
  left. split; [exact N|]. split; [reflexivity|]. apply Z.divide_trans with (Z.max align 8); [apply pow_max_8; exact Ha|exact D].
Qed.
