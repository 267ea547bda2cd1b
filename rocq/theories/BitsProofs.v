From Coq Require Import ZArith List Bool Lia Arith.
From Verif Require Import CInt BitsModel BitsSpec.
Import ListNotations.
Local Open Scope Z_scope.

Lemma number_nonneg w l : 0 <= w -> elements w l -> 0 <= number w l.
Proof.
  intros Hw. induction 1 as [|x l H1 H2 IH]; [cbn; lia|]. cbn [number].
  pose proof (Z.pow_pos_nonneg 2 w). nia.
Qed.

Lemma testbit_cons w x y b : 0 < w -> 0 <= x < 2 ^ w -> 0 <= b ->
  Z.testbit (x + 2 ^ w * y) b = if b <? w then Z.testbit x b else Z.testbit y (b - w).
Proof.
  intros Hw Hx Hb. destruct (Z.ltb_spec b w).
  - rewrite <- (Z.mod_pow2_bits_low (x + 2 ^ w * y) w b) by lia.
    rewrite (Z.mul_comm (2 ^ w)), Z_mod_plus_full, Z.mod_small by lia. reflexivity.
  - replace b with (b - w + w) at 1 by lia. rewrite <- Z.div_pow2_bits by lia.
    rewrite (Z.mul_comm (2 ^ w)), Z.div_add, Z.div_small by lia. reflexivity.
Qed.

Lemma testbit_number w l b : 0 < w -> elements w l -> 0 <= b ->
  Z.testbit (number w l) b = Z.testbit (nth (Z.to_nat (b / w)) l 0) (b mod w).
Proof.
  intros Hw H. revert b. induction H as [|x l H1 H2 IH]; intros b Hb.
  - cbn [number]. rewrite Z.bits_0. destruct (Z.to_nat _); cbn; rewrite Z.bits_0; reflexivity.
  - cbn [number]. rewrite testbit_cons by assumption. destruct (Z.ltb_spec b w).
    + rewrite Z.div_small, Z.mod_small by lia. reflexivity.
    + rewrite IH by lia.
      assert (D : b / w = (b - w) / w + 1).
      { replace b with (b - w + 1 * w) at 1 by lia. rewrite Z.div_add by lia. reflexivity. }
      assert (M : b mod w = (b - w) mod w).
      { replace b with (b - w + 1 * w) at 1 by lia. rewrite Z_mod_plus_full. reflexivity. }
      rewrite D, M. rewrite Z2Nat.inj_add by (try apply Z.div_pos; lia).
      rewrite Nat.add_comm. reflexivity.
Qed.

Lemma uw_range w x : 0 <= w -> 0 <= uw w x < 2 ^ w.
Proof. intros H. apply Z.mod_pos_bound. apply Z.pow_pos_nonneg; lia. Qed.

Lemma uw_testbit w x b : 0 <= w -> 0 <= b -> Z.testbit (uw w x) b = if b <? w then Z.testbit x b else false.
Proof.
  intros Hw Hb. unfold uw. destruct (Z.ltb_spec b w).
  - apply Z.mod_pow2_bits_low. lia.
  - apply Z.mod_pow2_bits_high. lia.
Qed.

Lemma one_bit k b : 0 <= k -> 0 <= b -> Z.testbit (Z.shiftl 1 k) b = (b =? k).
Proof.
  intros Hk Hb. rewrite Z.shiftl_mul_pow2, Z.mul_1_l by lia. destruct (Z.eqb_spec b k) as [->|N].
  - apply Z.pow2_bits_true. lia.
  - apply Z.pow2_bits_false. lia.
Qed.

Lemma OR_testbit w bit b : 0 < w -> 0 <= b -> Z.testbit (OR w bit) b = (b =? bit mod w).
Proof.
  intros Hw Hb. unfold OR, OFFSET. pose proof (Z.mod_pos_bound bit w Hw).
  rewrite uw_testbit by lia. rewrite one_bit by lia.
  destruct (Z.ltb_spec b w); [reflexivity|]. symmetry. apply Z.eqb_neq. lia.
Qed.

Lemma AND_testbit w bit b : 0 < w -> 0 <= b < w -> Z.testbit (AND w bit) b = negb (b =? bit mod w).
Proof.
  intros Hw Hb. unfold AND, OFFSET. pose proof (Z.mod_pos_bound bit w Hw).
  rewrite uw_testbit by lia. rewrite Z.lnot_spec, one_bit by lia.
  destruct (Z.ltb_spec b w); [reflexivity|lia].
Qed.

Lemma peek_in l i : 0 <= i < Z.of_nat (length l) -> peek l i = Some (nth (Z.to_nat i) l 0).
Proof. intros H. unfold peek. apply nth_error_nth'. lia. Qed.

Lemma get_spec w bit l : 0 < w -> elements w l -> 0 <= bit < w * Z.of_nat (length l) ->
  GET w bit l = Some (Z.b2z (Z.testbit (number w l) bit)).
Proof.
  intros Hw H Hb. unfold GET, INDEX.
  assert (Hi : 0 <= bit / w < Z.of_nat (length l)).
  { split; [apply Z.div_pos; lia|]. apply Z.div_lt_upper_bound; lia. }
  rewrite peek_in by exact Hi. f_equal. rewrite testbit_number by (assumption || lia).
  set (x := nth _ l 0). pose proof (Z.mod_pos_bound bit w Hw) as Bo.
  apply Z.bits_inj'. intros n Hn. rewrite uw_testbit by lia.
  rewrite Z.shiftr_spec, Z.land_spec by lia. unfold OFFSET. rewrite OR_testbit by lia.
  destruct (Z.eq_dec n 0) as [->|N].
  - replace (0 <? w) with true by (symmetry; apply Z.ltb_lt; lia). rewrite Z.b2z_bit0. cbn [Z.add].
    rewrite Z.eqb_refl, andb_true_r. reflexivity.
  - replace (n + bit mod w =? bit mod w) with false by (symmetry; apply Z.eqb_neq; lia).
    rewrite andb_false_r. destruct (n <? w); symmetry; rewrite Z.bits_above_log2; auto;
      destruct (Z.testbit x _); cbn; lia.
Qed.

Lemma poke_spec l i x : 0 <= i < Z.of_nat (length l) ->
  exists l', poke l i x = Some l' /\ length l' = length l /\
    forall k, nth k l' 0 = if Nat.eqb k (Z.to_nat i) then x else nth k l 0.
Proof.
  intros H. unfold poke. replace (Nat.ltb _ _) with true by (symmetry; apply Nat.ltb_lt; lia).
  eexists. split; [reflexivity|].
  assert (F : length (firstn (Z.to_nat i) l) = Z.to_nat i) by (apply firstn_length_le; lia).
  split.
  - rewrite app_length, F. cbn [length]. rewrite skipn_length. lia.
  - intros k. destruct (Nat.eqb_spec k (Z.to_nat i)) as [->|N].
    + rewrite app_nth2 by lia. rewrite F, Nat.sub_diag. reflexivity.
    + destruct (Nat.lt_ge_cases k (Z.to_nat i)) as [L|L].
      * rewrite app_nth1 by lia. rewrite <- (firstn_skipn (Z.to_nat i) l) at 2. rewrite app_nth1 by lia. reflexivity.
      * rewrite app_nth2 by lia. rewrite F. destruct (k - Z.to_nat i)%nat as [|m] eqn:E; [lia|]. cbn [nth].
        rewrite <- (firstn_skipn (S (Z.to_nat i)) l) at 2. rewrite app_nth2; rewrite firstn_length_le by lia; [|lia].
        f_equal. lia.
Qed.

Lemma elements_nth w l : (forall k, (k < length l)%nat -> 0 <= nth k l 0 < 2 ^ w) -> elements w l.
Proof. intros H. apply Forall_forall. intros x Hx. apply In_nth with (d := 0) in Hx. destruct Hx as (k & L & <-). auto. Qed.

Lemma nth_elements w l k : 0 <= w -> elements w l -> 0 <= nth k l 0 < 2 ^ w.
Proof.
  intros Hw H. destruct (Nat.lt_ge_cases k (length l)).
  - unfold elements in H. rewrite Forall_forall in H. apply H, nth_In, H0.
  - rewrite nth_overflow by lia. pose proof (Z.pow_pos_nonneg 2 w). lia.
Qed.

(** A write of one element, seen as the big number. *)
Lemma write_spec w bit l x : 0 < w -> elements w l -> 0 <= bit < w * Z.of_nat (length l) ->
  0 <= x < 2 ^ w ->
  exists l', poke l (INDEX w bit) x = Some l' /\ length l' = length l /\ elements w l' /\
    forall b, 0 <= b -> Z.testbit (number w l') b =
      if b / w =? bit / w then Z.testbit x (b mod w) else Z.testbit (number w l) b.
Proof.
  intros Hw H Hb Hx. unfold INDEX.
  assert (Hi : 0 <= bit / w < Z.of_nat (length l)).
  { split; [apply Z.div_pos; lia|]. apply Z.div_lt_upper_bound; lia. }
  destruct (poke_spec l (bit / w) x Hi) as (l' & E & L & N).
  assert (H' : elements w l').
  { apply elements_nth. intros k _. rewrite N. destruct (Nat.eqb _ _); [exact Hx|]. apply nth_elements; [lia|exact H]. }
  exists l'. split; [exact E|]. split; [exact L|]. split; [exact H'|].
  intros b Hb0. rewrite !testbit_number by (assumption || lia). rewrite N.
  assert (Hq : 0 <= b / w) by (apply Z.div_pos; lia).
  destruct (Z.eqb_spec (b / w) (bit / w)) as [->|Nq].
  - rewrite Nat.eqb_refl. reflexivity.
  - replace (Nat.eqb _ _) with false; [reflexivity|]. symmetry. apply Nat.eqb_neq. lia.
Qed.

Lemma number_eq w l n : 0 < w -> elements w l -> 0 <= n -> (forall b, 0 <= b -> Z.testbit (number w l) b = Z.testbit n b) -> number w l = n.
Proof. intros. apply Z.bits_inj'. auto. Qed.

Lemma div_mod_same w b bit : 0 < w -> b / w = bit / w -> b mod w = bit mod w -> b = bit.
Proof. intros Hw H1 H2. rewrite (Z.div_mod b w), (Z.div_mod bit w) by lia. congruence. Qed.

Lemma set_spec w bit l : 0 < w -> elements w l -> 0 <= bit < w * Z.of_nat (length l) ->
  exists l', SET w bit l = Some l' /\ length l' = length l /\ elements w l' /\
    number w l' = Z.setbit (number w l) bit.
Proof.
  intros Hw H Hb. unfold SET.
  assert (Hi : 0 <= bit / w < Z.of_nat (length l)).
  { split; [apply Z.div_pos; lia|]. apply Z.div_lt_upper_bound; lia. }
  rewrite peek_in by exact Hi.
  destruct (write_spec w bit l (uw w (Z.lor (nth (Z.to_nat (INDEX w bit)) l 0) (OR w bit))) Hw H Hb (uw_range w _ ltac:(lia)))
    as (l' & E & L & H' & T).
  exists l'. split; [exact E|]. split; [exact L|]. split; [exact H'|].
  apply Z.bits_inj'. intros b Hb0. rewrite T by exact Hb0.
  rewrite Z.setbit_eqb by lia.
  destruct (Z.eqb_spec (b / w) (bit / w)) as [Eq|Nq].
  - pose proof (Z.mod_pos_bound b w Hw). rewrite uw_testbit by lia.
    replace (b mod w <? w) with true by (symmetry; apply Z.ltb_lt; lia).
    rewrite Z.lor_spec, OR_testbit by lia. rewrite testbit_number by (assumption || lia).
    unfold INDEX. rewrite Eq. rewrite orb_comm. f_equal.
    destruct (Z.eqb_spec (b mod w) (bit mod w)) as [E2|N2].
    + symmetry. apply Z.eqb_eq. symmetry. apply (div_mod_same w); assumption.
    + symmetry. apply Z.eqb_neq. intros ->. contradiction.
  - replace (bit =? b) with false by (symmetry; apply Z.eqb_neq; intros ->; contradiction). reflexivity.
Qed.

Lemma clear_spec w bit l : 0 < w -> elements w l -> 0 <= bit < w * Z.of_nat (length l) ->
  exists l', CLEAR w bit l = Some l' /\ length l' = length l /\ elements w l' /\
    number w l' = Z.clearbit (number w l) bit.
Proof.
  intros Hw H Hb. unfold CLEAR.
  assert (Hi : 0 <= bit / w < Z.of_nat (length l)).
  { split; [apply Z.div_pos; lia|]. apply Z.div_lt_upper_bound; lia. }
  rewrite peek_in by exact Hi.
  destruct (write_spec w bit l (uw w (Z.land (nth (Z.to_nat (INDEX w bit)) l 0) (AND w bit))) Hw H Hb (uw_range w _ ltac:(lia)))
    as (l' & E & L & H' & T).
  exists l'. split; [exact E|]. split; [exact L|]. split; [exact H'|].
  apply Z.bits_inj'. intros b Hb0. rewrite T by exact Hb0.
  rewrite Z.clearbit_eqb by lia.
  destruct (Z.eqb_spec (b / w) (bit / w)) as [Eq|Nq].
  - pose proof (Z.mod_pos_bound b w Hw). rewrite uw_testbit by lia.
    replace (b mod w <? w) with true by (symmetry; apply Z.ltb_lt; lia).
    rewrite Z.land_spec, AND_testbit by lia. rewrite testbit_number by (assumption || lia).
    unfold INDEX. rewrite Eq. f_equal. f_equal.
    destruct (Z.eqb_spec (b mod w) (bit mod w)) as [E2|N2].
    + symmetry. apply Z.eqb_eq. symmetry. apply (div_mod_same w); assumption.
    + symmetry. apply Z.eqb_neq. intros ->. contradiction.
  - replace (bit =? b) with false by (symmetry; apply Z.eqb_neq; intros ->; contradiction).
    rewrite andb_true_r. reflexivity.
Qed.

Lemma count_spec w bits : 0 < w -> 0 <= bits ->
  bits <= w * COUNT w bits /\ (forall n, bits <= w * n -> COUNT w bits <= n) /\
  (forall bit, 0 <= bit < bits -> 0 <= INDEX w bit < COUNT w bits).
Proof.
  intros Hw Hb. unfold COUNT, INDEX.
  pose proof (Z.div_mod (bits + w - 1) w ltac:(lia)) as D. pose proof (Z.mod_pos_bound (bits + w - 1) w Hw) as M.
  set (q := (bits + w - 1) / w) in *. split; [lia|]. split.
  - intros n Hn. assert (w * q < w * (n + 1)) by lia. nia.
  - intros bit B. split; [apply Z.div_pos; lia|]. apply Z.div_lt_upper_bound; lia.
Qed.

Lemma out_of_bounds w bit l : 0 < w -> w * Z.of_nat (length l) <= bit -> GET w bit l = None /\ SET w bit l = None /\ CLEAR w bit l = None.
Proof.
  intros Hw H. unfold GET, SET, CLEAR, peek, INDEX.
  assert (Z.of_nat (length l) <= bit / w) by (apply Z.div_le_lower_bound; lia).
  replace (nth_error l (Z.to_nat (bit / w))) with (@None Z); [auto|].
  symmetry. apply nth_error_None. lia.
Qed.
