(** Lemmas on the checksum and the format of the environment. *)

From Coq Require Import ZArith List Bool Lia.
From Verif Require Import CInt CUtil UbenvModel UbenvSpec.
Import ListNotations.
Local Open Scope Z_scope.

(** * The shift register with no input *)

Definition f0 (s : Z) : Z := Z.lxor (Z.shiftr s 1) (if Z.odd s then 0xEDB88320 else 0).
Fixpoint iter (n : nat) (s : Z) : Z := match n with O => s | S n => iter n (f0 s) end.

Lemma odd_lxor a b : Z.odd (Z.lxor a b) = xorb (Z.odd a) (Z.odd b).
Proof. rewrite <- !Z.bit0_odd. apply Z.lxor_spec. Qed.
Lemma lxor_swap a b c d : Z.lxor (Z.lxor a b) (Z.lxor c d) = Z.lxor (Z.lxor a c) (Z.lxor b d).
Proof. rewrite !Z.lxor_assoc. f_equal. rewrite <- !Z.lxor_assoc. f_equal. apply Z.lxor_comm. Qed.

Lemma f0_linear a b : f0 (Z.lxor a b) = Z.lxor (f0 a) (f0 b).
Proof.
  unfold f0. rewrite odd_lxor, Z.shiftr_lxor, lxor_swap. f_equal. destruct (Z.odd a), (Z.odd b); reflexivity.
Qed.
Lemma iter_linear n : forall a b, iter n (Z.lxor a b) = Z.lxor (iter n a) (iter n b).
Proof. induction n as [|n IH]; intros a b; cbn [iter]; [reflexivity|]. rewrite f0_linear. apply IH. Qed.
Lemma iter_add n : forall m a, iter (n + m) a = iter m (iter n a).
Proof. induction n as [|n IH]; intros m a; cbn [iter Nat.add]; [reflexivity|apply IH]. Qed.
Lemma iter_shift n : forall a, iter n (Z.shiftl a (Z.of_nat n)) = a.
Proof.
  induction n as [|n IH]; intros a; cbn [iter]; [apply Z.shiftl_0_r|].
  replace (Z.shiftl a (Z.of_nat (S n))) with (Z.shiftl (Z.shiftl a (Z.of_nat n)) 1) by (rewrite Z.shiftl_shiftl by lia; f_equal; lia).
  unfold f0. replace (Z.odd (Z.shiftl (Z.shiftl a (Z.of_nat n)) 1)) with false.
  - rewrite Z.lxor_0_r, Z.shiftr_shiftl_l by lia. rewrite Z.sub_diag, Z.shiftl_0_r. apply IH.
  - rewrite Z.shiftl_mul_pow2 by lia. change (2 ^ 1) with 2. rewrite Z.odd_mul. symmetry. apply andb_false_r.
Qed.

Lemma lxor_range n a b : 0 <= n -> 0 <= a < 2 ^ n -> 0 <= b < 2 ^ n -> 0 <= Z.lxor a b < 2 ^ n.
Proof.
  intros N A B. assert (P : 0 <= Z.lxor a b) by (apply Z.lxor_nonneg; lia). split; [exact P|].
  destruct (Z.eq_dec (Z.lxor a b) 0) as [->|NZ]; [lia|]. apply Z.log2_lt_pow2; [lia|].
  destruct (Z.eq_dec a 0) as [->|A0]; [rewrite Z.lxor_0_l in *; apply Z.log2_lt_pow2; lia|]. destruct (Z.eq_dec b 0) as [->|B0]; [rewrite Z.lxor_0_r in *; apply Z.log2_lt_pow2; lia|].
  eapply Z.le_lt_trans; [apply Z.log2_lxor; lia|]. apply Z.max_lub_lt; apply Z.log2_lt_pow2; lia.
Qed.
Lemma f0_range s : 0 <= s < 2 ^ 32 -> 0 <= f0 s < 2 ^ 32.
Proof.
  intros S. unfold f0. apply lxor_range; [lia| |destruct (Z.odd s); lia]. rewrite Z.shiftr_div_pow2 by lia. change (2 ^ 1) with 2. split; [apply Z.div_pos; lia|]. apply Z.div_lt_upper_bound; lia.
Qed.
Lemma iter_range n : forall s, 0 <= s < 2 ^ 32 -> 0 <= iter n s < 2 ^ 32.
Proof. induction n as [|n IH]; intros s S; cbn [iter]; [exact S|]. apply IH, f0_range, S. Qed.
Lemma f0_zero s : 0 <= s < 2 ^ 32 -> f0 s = 0 -> s = 0.
Proof.
  intros S E. unfold f0 in E. apply Z.lxor_eq in E. destruct (Z.odd s) eqn:O.
  - exfalso. rewrite Z.shiftr_div_pow2 in E by lia. change (2 ^ 1) with 2 in E. assert (s / 2 < 2 ^ 31) by (apply Z.div_lt_upper_bound; lia). lia.
  - rewrite Z.shiftr_div_pow2 in E by lia. change (2 ^ 1) with 2 in E. pose proof (Z.div_mod s 2 ltac:(lia)). rewrite Zmod_odd, O in H. lia.
Qed.
Lemma iter_zero n : forall s, 0 <= s < 2 ^ 32 -> iter n s = 0 -> s = 0.
Proof. induction n as [|n IH]; intros s S E; cbn [iter] in E; [exact E|]. apply IH in E; [|apply f0_range, S]. exact (f0_zero s S E). Qed.
Lemma iter_inj n a b : 0 <= a < 2 ^ 32 -> 0 <= b < 2 ^ 32 -> iter n a = iter n b -> a = b.
Proof.
  intros A B E. apply Z.lxor_eq. apply (iter_zero n); [apply lxor_range; lia|]. rewrite iter_linear, E. apply Z.lxor_nilpotent.
Qed.

(** * The table *)

Lemma table_right : forall i, 0 <= i < 256 -> nth (Z.to_nat i) crc_table 0 = iter 8 i.
Proof.
  assert (F : forallb (fun k => nth k crc_table 0 =? iter 8 (Z.of_nat k)) (seq 0 256) = true) by (vm_compute; reflexivity).
  intros i I. rewrite forallb_forall in F. specialize (F (Z.to_nat i) ltac:(apply in_seq; lia)). apply Z.eqb_eq in F. rewrite Z2Nat.id in F by lia. exact F.
Qed.

Lemma do1_iter s o : 0 <= o < 256 -> do1 s o = iter 8 (Z.lxor s o).
Proof.
  intros O. unfold do1. set (y := Z.lxor s o).
  assert (L : Z.land y 255 = y mod 256) by (change 255 with (Z.ones 8); rewrite Z.land_ones by lia; reflexivity).
  rewrite L. rewrite table_right by (apply Z.mod_pos_bound; lia).
  assert (S8 : Z.shiftr s 8 = Z.shiftr y 8).
  { unfold y. rewrite Z.shiftr_lxor. replace (Z.shiftr o 8) with 0; [symmetry; apply Z.lxor_0_r|]. rewrite Z.shiftr_div_pow2 by lia. symmetry. apply Z.div_small. lia. }
  rewrite S8.
  assert (D : y = Z.lxor (y mod 256) (Z.shiftl (Z.shiftr y 8) 8)).
  { apply Z.bits_inj'. intros n N. rewrite Z.lxor_spec. change 256 with (2 ^ 8). rewrite Z.shiftl_spec by exact N. destruct (Z.ltb_spec n 8) as [B|B].
    - rewrite Z.mod_pow2_bits_low by exact B. rewrite (Z.testbit_neg_r _ (n - 8)) by lia. symmetry. apply xorb_false_r.
    - rewrite Z.mod_pow2_bits_high by lia. rewrite Z.shiftr_spec by lia. replace (n - 8 + 8) with n by lia. destruct (Z.testbit y n); reflexivity. }
  transitivity (iter 8 (Z.lxor (y mod 256) (Z.shiftl (Z.shiftr y 8) 8))); [|rewrite <- D; reflexivity].
  rewrite iter_linear. f_equal. symmetry. apply (iter_shift 8).
Qed.

(** All octets as one number. *)
Fixpoint value (l : list Z) : Z := match l with [] => 0 | o :: l => Z.lxor o (Z.shiftl (value l) 8) end.

Lemma ones_iter l : forall s, octets l -> ones s l = iter (8 * length l) (Z.lxor s (value l)).
Proof.
  induction l as [|o l IH]; intros s F; cbn [ones value length]; [rewrite Z.lxor_0_r; reflexivity|].
  inversion F; subst. rewrite IH by assumption. replace (8 * S (length l))%nat with (8 + 8 * length l)%nat by lia. rewrite iter_add. f_equal.
  rewrite do1_iter by assumption. rewrite <- Z.lxor_assoc. rewrite (iter_linear 8 (Z.lxor s o)). f_equal. symmetry. apply (iter_shift 8).
Qed.

Lemma ones_app a : forall b s, ones s (a ++ b) = ones (ones s a) b.
Proof. induction a as [|x a IH]; intros b s; cbn [ones app]; [reflexivity|apply IH]. Qed.
Lemma eights_ones n : forall s l, (length l < n)%nat -> eights n s l = ones s l.
Proof.
  induction n as [|n IH]; intros s l L; [lia|]. cbn [eights]. destruct (Nat.leb_spec 8 (length l)) as [E|E]; [|reflexivity].
  rewrite IH by (rewrite skipn_length; lia). rewrite <- ones_app, firstn_skipn. reflexivity.
Qed.

(** Bits of an octet put in one by one. *)
Fixpoint low (n : nat) (o : Z) : list bool := match n with O => [] | S n => Z.odd o :: low n (Z.shiftr o 1) end.
Lemma feed_iter n : forall s o, 0 <= o < 2 ^ Z.of_nat n -> fold_left feed (low n o) s = iter n (Z.lxor s o).
Proof.
  induction n as [|n IH]; intros s o O; cbn [low fold_left iter].
  - change (2 ^ Z.of_nat 0) with 1 in O. replace o with 0 by lia. symmetry. apply Z.lxor_0_r.
  - assert (P : 2 ^ Z.of_nat (S n) = 2 * 2 ^ Z.of_nat n) by (rewrite Nat2Z.inj_succ, Z.pow_succ_r by lia; reflexivity).
    rewrite IH; [|rewrite Z.shiftr_div_pow2 by lia; change (2 ^ 1) with 2; split; [apply Z.div_pos; lia|apply Z.div_lt_upper_bound; lia]].
    f_equal. unfold feed, f0. rewrite odd_lxor, Z.shiftr_lxor. rewrite !Z.lxor_assoc. f_equal. apply Z.lxor_comm.
Qed.
Lemma bits_low o : 0 <= o < 256 -> bits o = low 8 o.
Proof.
  intros _. unfold bits. cbn [low map]. rewrite !Z.shiftr_shiftr by lia. rewrite <- !Z.bit0_odd, !Z.shiftr_spec by lia. reflexivity.
Qed.
Lemma feed_ones l : forall s, octets l -> fold_left feed (flat_map bits l) s = ones s l.
Proof.
  induction l as [|o l IH]; intros s F; cbn [flat_map ones]; [reflexivity|]. inversion F; subst. rewrite fold_left_app. rewrite bits_low by assumption. rewrite feed_iter by assumption.
  rewrite IH by assumption. f_equal. symmetry. apply do1_iter. assumption.
Qed.

Lemma value_range l : octets l -> 0 <= value l < 2 ^ (8 * Z.of_nat (length l)).
Proof.
  induction 1 as [|o l O F IH]; cbn [value length]; [lia|]. apply lxor_range; [lia| |].
  - unfold is_u8 in O. split; [lia|]. apply Z.lt_le_trans with (2 ^ 8); [lia|]. apply Z.pow_le_mono_r; lia.
  - rewrite Z.shiftl_mul_pow2 by lia. replace (8 * Z.of_nat (S (length l))) with (8 * Z.of_nat (length l) + 8) by lia. rewrite Z.pow_add_r by lia. lia.
Qed.
Lemma value_inj a : forall b, octets a -> octets b -> length a = length b -> value a = value b -> a = b.
Proof.
  induction a as [|x a IH]; intros [|y b] A B L E; try discriminate L; [reflexivity|]. inversion A; inversion B; subst. cbn [value] in E. injection L as L.
  assert (M : forall o l, is_u8 o -> Z.lxor o (Z.shiftl (value l) 8) = o + 256 * value l).
  { intros o l O. rewrite Z.shiftl_mul_pow2 by lia. change (2 ^ 8) with 256. rewrite <- Z.add_nocarry_lxor; [lia|]. apply Z.bits_inj'. intros n N. rewrite Z.land_spec, Z.bits_0. destruct (Z.ltb_spec n 8) as [Q|Q].
    - rewrite (Z.mul_comm (value l)). change 256 with (2 ^ 8). rewrite Z.mul_comm, Z.mul_pow2_bits_low by lia. apply andb_false_r.
    - replace (Z.testbit o n) with false; [reflexivity|]. symmetry. unfold is_u8 in O. destruct (Z.eq_dec o 0) as [->|]; [apply Z.testbit_0_l|]. apply Z.bits_above_log2; [lia|]. apply Z.lt_le_trans with 8; [apply Z.log2_lt_pow2; lia|lia]. }
  rewrite !M in E by assumption. unfold is_u8 in *. assert (x = y) by lia. subst y. f_equal. apply IH; try assumption. lia.
Qed.

Lemma ones_range l : forall s, octets l -> 0 <= s < 2 ^ 32 -> 0 <= ones s l < 2 ^ 32.
Proof.
  induction l as [|o l IH]; intros s F S; cbn [ones]; [exact S|]. inversion F; subst. apply IH; [assumption|]. rewrite do1_iter by assumption. apply iter_range. apply lxor_range; unfold is_u8 in *; lia.
Qed.
Lemma ones_inj l : forall s t, octets l -> 0 <= s < 2 ^ 32 -> 0 <= t < 2 ^ 32 -> ones s l = ones t l -> s = t.
Proof.
  induction l as [|o l IH]; intros s t F S T E; cbn [ones] in E; [exact E|]. inversion F; subst.
  assert (R : forall u, 0 <= u < 2 ^ 32 -> 0 <= Z.lxor u o < 2 ^ 32) by (intros u U; apply lxor_range; unfold is_u8 in *; lia).
  apply IH in E; try assumption; try (rewrite do1_iter by assumption; apply iter_range, R; assumption). rewrite !do1_iter in E by assumption. apply iter_inj in E; try (apply R; assumption).
  apply (f_equal (fun z => Z.lxor z o)) in E. rewrite !Z.lxor_assoc, Z.lxor_nilpotent, !Z.lxor_0_r in E. exact E.
Qed.

(** * The format *)

Lemma string_at_app s : forall rest, ~ In 0 s -> string_at (s ++ 0 :: rest) = Some (s, rest).
Proof.
  induction s as [|c s IH]; intros rest N; cbn [app string_at]; [reflexivity|]. destruct (Z.eqb_spec c 0); [exfalso; apply N; left; lia|]. rewrite IH by (intros Q; apply N; right; exact Q). reflexivity.
Qed.
Lemma strchr_app k : forall v, ~ In 61 k -> strchr (k ++ 61 :: v) 61 = Some (k, v).
Proof.
  induction k as [|c k IH]; intros v N; cbn [app strchr]; [reflexivity|]. destruct (Z.eqb_spec c 61); [exfalso; apply N; left; lia|]. rewrite IH by (intros Q; apply N; right; exact Q). reflexivity.
Qed.
Lemma strneq_iff k : forall n t, strneq (length k) n (k ++ t) = true <-> begins k n.
Proof.
  induction k as [|c k IH]; intros n t; cbn [length strneq app]; [split; [intros _; exists n; reflexivity|reflexivity]|].
  destruct n as [|x n]; [split; [discriminate|intros (u & Q); discriminate Q]|]. rewrite andb_true_iff, Z.eqb_eq, IH. split.
  - intros (-> & u & ->). exists u. reflexivity.
  - intros (u & Q). injection Q as -> ->. split; [reflexivity|exists u; reflexivity].
Qed.

Definition line (e : list Z * list Z) : list Z := fst e ++ [61] ++ snd e.

Lemma environment_head data es : environment data es -> (exists t, data = 0 :: t /\ es = []) \/
  (exists c t k v rest es', data = c :: t /\ c <> 0 /\ es = (k, v) :: es' /\ string_at data = Some (line (k, v), rest) /\ strchr (line (k, v)) 61 = Some (k, v) /\ environment rest es' /\ (length rest < length data)%nat).
Proof.
  intros [padding|k v rest es' K E V R]; [left; exists padding; split; reflexivity|]. right.
  assert (S : string_at (k ++ [61] ++ v ++ [0] ++ rest) = Some (line (k, v), rest)).
  { replace (k ++ [61] ++ v ++ [0] ++ rest) with (line (k, v) ++ 0 :: rest) by (unfold line; cbn [fst snd]; rewrite <- !app_assoc; reflexivity). apply string_at_app. unfold line. cbn [fst snd]. intros Q. apply in_app_or in Q. destruct Q as [Q|Q]; [exact (K Q)|]. cbn in Q. destruct Q as [Q|Q]; [discriminate Q|exact (V Q)]. }
  assert (C : exists c t, k ++ [61] ++ v ++ [0] ++ rest = c :: t /\ c <> 0).
  { destruct k as [|c k]; [exists 61, (v ++ [0] ++ rest); split; [reflexivity|discriminate]|]. exists c, (k ++ [61] ++ v ++ [0] ++ rest). split; [reflexivity|]. intros ->. apply K. left. reflexivity. }
  destruct C as (c & t & CE & C0). exists c, t, k, v, rest, es'. split; [exact CE|]. split; [exact C0|]. split; [reflexivity|]. split; [exact S|]. split; [unfold line; cbn [fst snd app]; apply strchr_app, E|]. split; [exact R|]. rewrite !app_length. cbn. lia.
Qed.

Lemma walk_all fuel : forall data es result, environment data es -> (length data < fuel)%nat ->
  walk fuel data None result = Some (result, map line es).
Proof.
  induction fuel as [|fuel IH]; intros data es result E F; [lia|].
  destruct (environment_head _ _ E) as [(t & -> & ->)|(c & t & k & v & rest & es' & D & C & -> & S & X & R & L)]; [reflexivity|].
  cbn [walk]. rewrite D. destruct (Z.eqb_spec c 0); [contradiction|]. rewrite <- D, S. cbn [bind]. rewrite X. cbn [bind]. rewrite (IH rest es') by (try exact R; lia). reflexivity.
Qed.
Lemma walk_one fuel : forall data es n result, environment data es -> (length data < fuel)%nat ->
  (exists before k v after, es = before ++ (k, v) :: after /\ Forall (fun e => ~ begins (fst e) n) before /\ begins k n /\ walk fuel data (Some n) result = Some (0, [v])) \/
  (Forall (fun e => ~ begins (fst e) n) es /\ walk fuel data (Some n) result = Some (result, [])).
Proof.
  induction fuel as [|fuel IH]; intros data es n result E F; [lia|].
  destruct (environment_head _ _ E) as [(t & -> & ->)|(c & t & k & v & rest & es' & D & C & -> & S & X & R & L)]; [right; split; [constructor|reflexivity]|].
  cbn [walk]. rewrite D. destruct (Z.eqb_spec c 0); [contradiction|]. rewrite <- D, S. cbn [bind]. rewrite X. cbn [bind].
  destruct (strneq (length k) n (line (k, v))) eqn:M.
  - apply strneq_iff in M. left. exists [], k, v, es'. split; [reflexivity|]. split; [constructor|]. split; [exact M|reflexivity].
  - assert (N : ~ begins k n) by (intros Q; apply (strneq_iff k n ([61] ++ v)) in Q; unfold line in M; cbn [fst snd] in M; congruence).
    destruct (IH rest es' n result R ltac:(lia)) as [(before & k' & v' & after & -> & B & K & W)|(B & W)].
    + left. exists ((k, v) :: before), k', v', after. split; [reflexivity|]. split; [constructor; [exact N|exact B]|]. split; [exact K|exact W].
    + right. split; [constructor; [exact N|exact B]|exact W].
Qed.
