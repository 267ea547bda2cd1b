(** Proofs about the utilities that sleep and tell the time. *)

From Coq Require Import ZArith List Bool Lia.
From Verif Require Import CInt CUtil NumberModel NumberSpec NumberProofs NumberProps OptionModel TimeModel TimeSpec TimeProofs TimeProps ClocktoolModel ClocktoolSpec.
Import ListNotations.
Local Open Scope Z_scope.

Lemma read_signed a n : numeral a n -> - 2 ^ 63 <= n < 2 ^ 63 -> strtoll a = (n, []).
Proof.
  intros N B. pose proof (C60_signed a n [] N I) as U. rewrite app_nil_r in U. unfold number_signed in U. rewrite U. f_equal.
  change (2 ^ 63) with 9223372036854775808 in *. unfold clip. lia.
Qed.
Lemma optional_some a n default least : numeral a n -> least <= n < 2 ^ 63 -> - 2 ^ 63 <= least -> optional (Some a) default least = Some n.
Proof.
  intros N B L. unfold optional. rewrite (read_signed a n N) by lia. destruct (Z.ltb_spec n least); [lia|reflexivity].
Qed.
Lemma optional_bad a default least : a <> [] -> (forall n, numeral a n -> n < least) -> -2 ^ 63 < least <= 2 ^ 63 - 1 -> optional (Some a) default least = None.
Proof.
  intros NE H L. unfold optional. destruct (strtoll a) as (v, rest) eqn:E. destruct rest as [|c r]; [|destruct (v <? least); reflexivity].
  destruct (C60_all a v NE E) as (n & N & V). specialize (H n N). change (2 ^ 63) with 9223372036854775808 in *. unfold clip in V.
  destruct (Z.ltb_spec v least); [reflexivity|lia].
Qed.

Lemma utoa_tail : forall fuel n tail, utoa fuel n tail = utoa fuel n [] ++ tail.
Proof.
  induction fuel as [|fuel IH]; intros n tail; [reflexivity|]. cbn [utoa]. destruct (n / 10 =? 0); [reflexivity|]. rewrite IH, (IH (n / 10) [48 + n mod 10]), <- app_assoc. reflexivity.
Qed.
Lemma repeat_snoc {A} (x : A) k : repeat x k ++ [x] = x :: repeat x k.
Proof. induction k as [|k IH]; [reflexivity|]. cbn [repeat app]. rewrite IH. reflexivity. Qed.
Lemma decimal_zero : forall w, decimal w 0 = repeat 48 w.
Proof. induction w as [|w IH]; [reflexivity|]. cbn [decimal]. change (0 / 10) with 0. change (48 + 0 mod 10) with 48. rewrite IH, repeat_snoc. reflexivity. Qed.
Lemma padded_decimal : forall fuel w n, 0 <= n < 10 ^ Z.of_nat w -> (0 < w <= fuel)%nat ->
  repeat 48 (w - length (utoa fuel n [])) ++ utoa fuel n [] = decimal w n.
Proof.
  induction fuel as [|fuel IH]; intros w n B W; [lia|]. destruct w as [|w]; [lia|]. cbn [utoa decimal].
  destruct (Z.eqb_spec (n / 10) 0) as [Z0|Z0].
  - rewrite Z0, decimal_zero. cbn [length]. replace (S w - 1)%nat with w by lia. reflexivity.
  - rewrite utoa_tail. rewrite Nat2Z.inj_succ, Z.pow_succ_r in B by lia.
    assert (B' : 0 <= n / 10 < 10 ^ Z.of_nat w) by (split; [apply Z.div_pos; lia|apply Z.div_lt_upper_bound; lia]).
    destruct w as [|w]; [change (10 ^ Z.of_nat 0) with 1 in B'; lia|].
    rewrite <- (IH (S w) (n / 10) B') by lia. rewrite app_length. cbn [length]. rewrite <- app_assoc. f_equal. f_equal. lia.
Qed.
Lemma padded_ok w n : 0 <= n < 10 ^ Z.of_nat w -> (0 < w <= 20)%nat -> padded w n = decimal w n.
Proof. intros B W. apply padded_decimal; assumption. Qed.

Lemma moment_iso d f : plain d -> 0 <= f < frequency -> moment d f = iso d f.
Proof.
  intros (Y & M & D & H & Mi & S) F. unfold frequency in F. unfold moment, iso.
  rewrite !padded_ok; try reflexivity; try lia; try (change (10 ^ Z.of_nat 4) with 10000; lia); try (change (10 ^ Z.of_nat 2) with 100; lia); change (10 ^ Z.of_nat 9) with 1000000000; lia.
Qed.
Lemma ck32 x : is_s32 x -> ck_s32 x = Some x.
Proof. unfold is_s32, ck_s32. intros H. destruct (Z.leb_spec (-2147483648) x); [|lia]. destruct (Z.ltb_spec x 2147483648); [reflexivity|lia]. Qed.
Lemma zulu_plain gm ticks d : is_s64 ticks -> 0 <= ticks -> plain d -> gm (ticks / frequency) = Some (broken_down d) -> zulu gm ticks = Some (Some (d, ticks mod frequency)).
Proof.
  intros B P (Y & M & _) G. unfold zulu. destruct (C28_separate ticks B) as (S & _); [unfold TIME_ERROR; lia|]. rewrite S. unfold bind. rewrite G. unfold extract, broken_down. cbn [year month day hour minute second].
  replace (year d - 1900 + 1900) with (year d) by lia. replace (month d - 1 + 1) with (month d) by lia.
  unfold bind. rewrite !ck32 by (unfold is_s32; lia). destruct d; reflexivity.
Qed.

Lemma joined s n : 0 <= s -> 0 <= n < frequency -> is_s64 (s * frequency + n) -> time_generic (Some (s, n)) = Some (s * frequency + n).
Proof.
  unfold is_s64, frequency. intros S N B. unfold time_generic, seconds2ticks.
  rewrite (u2t_divides s 1 1000000000) by (unfold is_s64; reflexivity || lia). rewrite (u2t_divides n 1000000000 1) by (unfold is_s64; reflexivity || lia).
  unfold bind, add64, ck_s64. rewrite Z.mul_1_r. destruct (Z.leb_spec (-9223372036854775808) (s * 1000000000 + n)); [|lia]. destruct (Z.ltb_spec (s * 1000000000 + n) 9223372036854775808); [reflexivity|lia].
Qed.
Lemma now_parts s n : 0 <= n < frequency -> (s * frequency + n) / frequency = s /\ (s * frequency + n) mod frequency = n.
Proof. unfold frequency. intros N. rewrite Z.add_comm, Z.div_add, Z.mod_add, Z.div_small, Z.mod_small by lia. lia. Qed.
Lemma abs_s32 x : is_s32 x -> x <> -2147483648 -> (if s32 x <? 0 then ck_s32 (- s32 x) else Some (s32 x)) = Some (Z.abs x).
Proof.
  unfold is_s32. intros B N. assert (E : s32 x = x) by (unfold s32; rewrite Z.mod_small by lia; lia). rewrite E.
  destruct (Z.ltb_spec x 0); [rewrite ck32 by (unfold is_s32; lia)|]; f_equal; lia.
Qed.
