From Coq Require Import ZArith List Bool Lia.
From Verif Require Import CInt CUtil DumpModel DumpSpec.
Import ListNotations.
Local Open Scope Z_scope.

Lemma u64_id x : 0 <= x < 2 ^ 64 -> u64 x = x.
Proof. unfold u64. apply Z.mod_small. Qed.

(** The rest of the data from an address on. *)
Definition from (data : list Z) (address a : Z) : list Z := skipn (Z.to_nat (a - address)) data.

Lemma from_inside data address a : address <= a < address + Z.of_nat (length data) ->
  exists x, at_address data address a = Some x /\ In x data /\ from data address a = x :: from data address (a + 1).
Proof.
  intros H. unfold at_address, from. destruct (Z.ltb_spec a address); [lia|].
  replace (Z.to_nat (a + 1 - address)) with (S (Z.to_nat (a - address))) by lia.
  assert (L : (Z.to_nat (a - address) < length data)%nat) by lia. clear H H0.
  revert L. generalize (Z.to_nat (a - address)). induction data as [|y data IH]; intros n L; [cbn in L; lia|].
  destruct n as [|n]; [exists y; repeat split; left; reflexivity|]. cbn [length] in L.
  destruct (IH n ltac:(lia)) as (x & E1 & E2 & E3). exists x. split; [exact E1|]. split; [right; exact E2|].
  cbn [skipn]. cbn [skipn] in E3. exact E3.
Qed.

Lemma from_outside data address a : ~ (address <= a < address + Z.of_nat (length data)) ->
  at_address data address a = None /\ from data address a = from data address (a + 1).
Proof.
  intros H. unfold at_address, from. destruct (Z.ltb_spec a address).
  - split; [reflexivity|]. replace (Z.to_nat (a - address)) with O by lia. replace (Z.to_nat (a + 1 - address)) with O by lia. reflexivity.
  - split; [apply nth_error_None; lia|]. rewrite !skipn_all2 by lia. reflexivity.
Qed.

Lemma digit_numeral up d : 0 <= d < 16 -> digit up d = nth (Z.to_nat d) (numerals up) 0.
Proof.
  intros H. assert (C : exists n, d = Z.of_nat n /\ (n < 16)%nat) by (exists (Z.to_nat d); lia).
  destruct C as (n & -> & Hn). do 16 (destruct n as [|n]; [destruct up; reflexivity|]). lia.
Qed.

Lemma datum_cell up x : is_u8 x ->
  datum up x = [nth (Z.to_nat (x / 16)) (numerals up) 0; nth (Z.to_nat (x mod 16)) (numerals up) 0].
Proof.
  intros Hx. unfold datum. rewrite Z.shiftr_div_pow2 by lia. change (2 ^ 4) with 16.
  change 15 with (Z.ones 4). rewrite Z.land_ones by lia. change (2 ^ 4) with 16. red in Hx.
  rewrite !digit_numeral; [reflexivity|apply Z.mod_pos_bound; lia|split; [apply Z.div_pos; lia|apply Z.div_lt_upper_bound; lia]].
Qed.

Section table.
  Variables (f : format) (data : list Z) (address : Z).
  Hypothesis Hd : octets data.
  Let last := address + Z.of_nat (length data).

  Lemma inside hh : negb ((address <=? hh) && (hh <? last)) = false <-> address <= hh < last.
  Proof. rewrite negb_false_iff, andb_true_iff, Z.leb_le, Z.ltb_lt. tauto. Qed.

  Lemma word_loop_spec : forall n fuel hh, (n <= fuel)%nat -> 0 <= hh -> hh + Z.of_nat n < 2 ^ 64 ->
    word_loop fuel f address last hh (hh + Z.of_nat n) (from data address hh) =
      Some (flat_map (hex_cell f data address) (range hh n), hh + Z.of_nat n, from data address (hh + Z.of_nat n)).
  Proof.
    induction n as [|n IH]; intros fuel hh Hf H0 H1.
    - rewrite Z.add_0_r. destruct fuel; cbn [word_loop]; rewrite Z.ltb_irrefl; reflexivity.
    - destruct fuel as [|fuel]; [lia|]. cbn [word_loop]. destruct (Z.ltb_spec hh (hh + Z.of_nat (S n))); [|lia].
      rewrite u64_id by lia. specialize (IH fuel (hh + 1) ltac:(lia) ltac:(lia) ltac:(lia)).
      replace (hh + 1 + Z.of_nat n) with (hh + Z.of_nat (S n)) in IH by lia.
      cbn [range flat_map]. unfold hex_cell at 1.
      destruct (negb ((address <=? hh) && (hh <? last))) eqn:E.
      + destruct (from_outside data address hh) as (E1 & E2); [intros Q; apply inside in Q; congruence|].
        rewrite E1, E2, IH. reflexivity.
      + apply inside in E. destruct (from_inside data address hh E) as (x & E1 & E2 & E3). rewrite E1, E3, IH.
        cbn [bind]. unfold octets in Hd. rewrite Forall_forall in Hd. rewrite datum_cell by (apply Hd, E2). reflexivity.
  Qed.

  Lemma char_loop_spec : forall n fuel hh, (n <= fuel)%nat -> 0 <= hh -> hh + Z.of_nat n < 2 ^ 64 ->
    char_loop fuel f address last hh (hh + Z.of_nat n) (from data address hh) =
      Some (flat_map (char_cell f data address) (range hh n), hh + Z.of_nat n, from data address (hh + Z.of_nat n)).
  Proof.
    induction n as [|n IH]; intros fuel hh Hf H0 H1.
    - rewrite Z.add_0_r. destruct fuel; cbn [char_loop]; rewrite Z.ltb_irrefl; reflexivity.
    - destruct fuel as [|fuel]; [lia|]. cbn [char_loop]. destruct (Z.ltb_spec hh (hh + Z.of_nat (S n))); [|lia].
      rewrite u64_id by lia. specialize (IH fuel (hh + 1) ltac:(lia) ltac:(lia) ltac:(lia)).
      replace (hh + 1 + Z.of_nat n) with (hh + Z.of_nat (S n)) in IH by lia.
      cbn [range flat_map]. unfold char_cell at 1.
      destruct (negb ((address <=? hh) && (hh <? last))) eqn:E.
      + destruct (from_outside data address hh) as (E1 & E2); [intros Q; apply inside in Q; congruence|].
        rewrite E1, E2, IH. reflexivity.
      + apply inside in E. destruct (from_inside data address hh E) as (x & E1 & E2 & E3). rewrite E1, E3, IH.
        cbn [bind]. replace (x <=? 126) with (x <? 127); [reflexivity|].
        destruct (Z.ltb_spec x 127), (Z.leb_spec x 126); lia.
  Qed.

  Hypothesis Hb : 1 <= bpw f.

  Lemma line_loop_spec : forall n fuel hh, (n <= fuel)%nat -> 0 <= hh -> hh + Z.of_nat n * bpw f < 2 ^ 64 ->
    line_loop fuel f address last hh (hh + Z.of_nat n * bpw f) (from data address hh) =
      Some (words f data address hh n, hh + Z.of_nat n * bpw f, from data address (hh + Z.of_nat n * bpw f)).
  Proof.
    induction n as [|n IH]; intros fuel hh Hf H0 H1.
    - rewrite Z.mul_0_l, Z.add_0_r. destruct fuel; cbn [line_loop]; rewrite Z.ltb_irrefl; reflexivity.
    - destruct fuel as [|fuel]; [lia|]. cbn [line_loop]. destruct (Z.ltb_spec hh (hh + Z.of_nat (S n) * bpw f)); [|nia].
      rewrite u64_id by nia.
      pose proof (word_loop_spec (Z.to_nat (bpw f)) (Z.to_nat (bpw f)) hh ltac:(lia) H0 ltac:(nia)) as W.
      rewrite Z2Nat.id in W by lia. rewrite W. cbn [bind].
      specialize (IH fuel (hh + bpw f) ltac:(lia) ltac:(lia) ltac:(nia)).
      replace (hh + bpw f + Z.of_nat n * bpw f) with (hh + Z.of_nat (S n) * bpw f) in IH by lia.
      rewrite IH. cbn [bind words]. reflexivity.
  Qed.

  Hypothesis Hw : 1 <= wpl f.
  Let W := bpw f * wpl f.
  Hypothesis HW : W < 2 ^ 64.

  Lemma W_pos : 1 <= W.
  Proof. unfold W. nia. Qed.

  Lemma lines_loop_spec end_ : forall n fuel here, (n <= fuel)%nat -> 0 <= here -> here + Z.of_nat n * W < 2 ^ 64 ->
    end_ <= here + Z.of_nat n * W -> (n <> O -> here + Z.of_nat (n - 1) * W < end_) ->
    lines_loop fuel f address last here end_ (from data address here) = Some (table f data address here n).
  Proof.
    pose proof W_pos as WP.
    induction n as [|n IH]; intros fuel here Hf H0 H1 H2 H3.
    - destruct fuel; cbn [lines_loop]; (destruct (Z.ltb_spec here end_); [lia|reflexivity]).
    - destruct fuel as [|fuel]; [lia|]. cbn [lines_loop]. specialize (H3 ltac:(lia)).
      replace (S n - 1)%nat with n in H3 by lia. destruct (Z.ltb_spec here end_); [|nia].
      fold W. rewrite (u64_id W) by lia. rewrite u64_id by nia.
      pose proof (line_loop_spec (Z.to_nat (wpl f)) (Z.to_nat (wpl f)) here ltac:(lia) H0) as L.
      rewrite Z2Nat.id in L by lia. rewrite (Z.mul_comm (wpl f)) in L. fold W in L. rewrite L by nia. cbn [bind].
      pose proof (char_loop_spec (Z.to_nat W) (Z.to_nat W) here ltac:(lia) H0) as C.
      rewrite Z2Nat.id in C by lia. rewrite C by nia. cbn [bind].
      rewrite IH; [|lia|nia|nia|nia|].
      2: { intros Hn. destruct n as [|n]; [lia|]. replace (S n - 1)%nat with n by lia. nia. }
      cbn [bind table]. unfold row. fold W. rewrite <- !app_assoc. reflexivity.
  Qed.
End table.

(** Rounding down with a mask. *)
Lemma land_le x m : 0 <= m -> 0 <= Z.land x m <= m.
Proof.
  intros Hm. split; [apply Z.land_nonneg; auto|].
  assert (E : m - Z.land x m = Z.ldiff m (Z.land x m)).
  { apply Z.sub_nocarry_ldiff. apply Z.bits_inj'. intros n Hn. rewrite Z.ldiff_spec, Z.land_spec, Z.bits_0.
    destruct (Z.testbit x n), (Z.testbit m n); reflexivity. }
  assert (0 <= Z.ldiff m (Z.land x m)) by (apply Z.ldiff_nonneg; auto). lia.
Qed.

Lemma round_down x m : 0 <= x < 2 ^ 64 -> Z.land x (u64 (Z.lnot m)) = x - Z.land x m.
Proof.
  intros Hx. unfold u64. change 18446744073709551616 with (2 ^ 64). rewrite <- Z.land_ones by lia.
  rewrite (Z.land_comm (Z.lnot m)), Z.land_assoc, Z.land_ones, Z.mod_small by lia.
  rewrite <- Z.ldiff_land.
  rewrite Z.sub_nocarry_ldiff.
  - apply Z.bits_inj'. intros n Hn. rewrite !Z.ldiff_spec, Z.land_spec. destruct (Z.testbit x n), (Z.testbit m n); reflexivity.
  - apply Z.bits_inj'. intros n Hn. rewrite Z.ldiff_spec, Z.land_spec, Z.bits_0. destruct (Z.testbit x n), (Z.testbit m n); reflexivity.
Qed.

(** How many lines. *)
Definition lines_for (a e w : Z) : nat := Z.to_nat ((e - a + w - 1) / w).

Lemma lines_for_spec a e w : 1 <= w -> e <= a + Z.of_nat (lines_for a e w) * w /\ (lines_for a e w <> O -> a + Z.of_nat (lines_for a e w - 1) * w < e).
Proof.
  intros Hw. unfold lines_for. pose proof (Z.div_mod (e - a + w - 1) w ltac:(lia)) as D.
  pose proof (Z.mod_pos_bound (e - a + w - 1) w ltac:(lia)) as M. set (q := (e - a + w - 1) / w) in *.
  destruct (Z.leb_spec 0 q).
  - rewrite Nat2Z.inj_sub_max. rewrite Z2Nat.id by lia. split; [nia|]. intros Hn. assert (1 <= q) by lia. nia.
  - replace (Z.to_nat q) with O by lia. split; [nia|congruence].
Qed.

Lemma dump_spec f data address : octets data -> 0 <= address -> 1 <= bpw f -> 1 <= wpl f ->
  let w := bpw f * wpl f in
  let begin := address - Z.land address (w - 1) in
  let last := address + Z.of_nat (length data) in
  let end_ := last + (w - 1) - Z.land (last + (w - 1)) (w - 1) in
  let n := lines_for begin end_ w in
  w < 2 ^ 64 -> last + (w - 1) < 2 ^ 64 -> begin + Z.of_nat n * w < 2 ^ 64 ->
  dump f data address = Some (table f data address begin n).
Proof.
  intros Hd Ha Hb Hw w begin last end_ n HW H1 H2.
  assert (WP : 1 <= w) by (unfold w; nia). assert (L0 : address <= last) by (unfold last; lia).
  unfold dump. fold w. rewrite (u64_id w) by lia. rewrite (u64_id (w - 1)) by lia. fold last. rewrite (u64_id last) by lia.
  rewrite (u64_id (last + (w - 1))) by lia. rewrite !round_down by lia. fold begin end_.
  pose proof (lines_for_spec begin end_ w WP) as (S1 & S2). fold n in S1, S2.
  pose proof (land_le address (w - 1) ltac:(lia)).
  assert (B0 : 0 <= begin) by (unfold begin; pose proof (Z.land_nonneg address (w - 1)); pose proof (land_le (w - 1) address ltac:(lia)) as Q; rewrite Z.land_comm in Q; lia).
  pose proof (lines_loop_spec f data address Hd Hb Hw ltac:(fold w; lia) end_ n (Z.to_nat (end_ - begin)) begin) as Q.
  fold last in Q. fold w in Q.
  replace (from data address begin) with data in Q.
  - apply Q; try assumption. destruct n as [|m]; [lia|]. specialize (S2 ltac:(lia)). replace (S m - 1)%nat with m in S2 by lia. nia.
  - unfold from. replace (Z.to_nat (begin - address)) with O by (unfold begin; lia). reflexivity.
Qed.

Definition the (o : option Z) : list Z := match o with Some x => [x] | None => [] end.

Lemma once data address : forall n a, address + Z.of_nat (length data) <= a + Z.of_nat n ->
  flat_map (fun x => the (at_address data address x)) (range a n) = from data address a.
Proof.
  induction n as [|n IH]; intros a H.
  - cbn. symmetry. unfold from. apply skipn_all2. lia.
  - cbn [range flat_map]. rewrite IH by lia.
    assert (D : address <= a < address + Z.of_nat (length data) \/ ~ (address <= a < address + Z.of_nat (length data))) by lia.
    destruct D as [D|D].
    + destruct (from_inside data address a D) as (x & -> & _ & ->). reflexivity.
    + destruct (from_outside data address a D) as (-> & ->). reflexivity.
Qed.

Lemma mult_step w a b p q m : 1 <= w -> p = w * a -> q = w * b -> p + m * w < q -> p + (m + 1) * w <= q.
Proof. intros Hw -> -> H. assert (a + m < b) by nia. nia. Qed.
