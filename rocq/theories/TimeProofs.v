From Coq Require Import ZArith List Bool Lia.
From Verif Require Import CInt CUtil TimeModel TimeSpec.
Import ListNotations.
Local Open Scope Z_scope.

Lemma ck64_ok x : is_s64 x -> ck_s64 x = Some x.
Proof.
  intros H. red in H. unfold ck_s64. destruct (Z.leb_spec (-9223372036854775808) x); [|lia].
  destruct (Z.ltb_spec x 9223372036854775808); [reflexivity|lia].
Qed.
Lemma ck64_inv x y : ck_s64 x = Some y -> y = x /\ is_s64 x.
Proof.
  unfold ck_s64, is_s64. destruct (Z.leb_spec (-9223372036854775808) x); [|discriminate].
  destruct (Z.ltb_spec x 9223372036854775808); [|discriminate]. intros [= <-]. lia.
Qed.
Lemma ck32_ok x : is_s32 x -> ck_s32 x = Some x.
Proof.
  intros H. red in H. unfold ck_s32. destruct (Z.leb_spec (-2147483648) x); [|lia].
  destruct (Z.ltb_spec x 2147483648); [reflexivity|lia].
Qed.

Lemma quot_bound x y : 0 < y -> Z.abs (Z.quot x y) <= Z.abs x.
Proof.
  intros Hy. destruct (Z.le_ge_cases 0 x).
  - rewrite Z.quot_div_nonneg by lia. assert (0 <= x / y) by (apply Z.div_pos; lia).
    assert (x / y <= x) by (apply Z.div_le_upper_bound; nia). lia.
  - replace x with (- - x) at 1 by lia. rewrite Z.quot_opp_l by lia. rewrite Z.quot_div_nonneg by lia.
    assert (0 <= (- x) / y) by (apply Z.div_pos; lia). assert ((- x) / y <= - x) by (apply Z.div_le_upper_bound; nia). lia.
Qed.
Lemma quot_s64 x y : 0 < y -> is_s64 x -> is_s64 (Z.quot x y).
Proof.
  intros Hy Hx. unfold is_s64 in *. pose proof (quot_bound x y Hy).
  destruct (Z.le_ge_cases 0 x).
  - assert (0 <= Z.quot x y) by (apply Z.quot_pos; lia). lia.
  - assert (0 <= Z.quot (- x) y) by (apply Z.quot_pos; lia). rewrite Z.quot_opp_l in H1 by lia. lia.
Qed.
Lemma div64_ok x y : 0 < y -> is_s64 x -> div64 x y = Some (Z.quot x y).
Proof.
  intros Hy Hx. unfold div64. destruct (Z.eqb_spec y 0); [lia|]. apply ck64_ok, quot_s64; assumption.
Qed.
Lemma rem64_ok x y : 0 < y -> is_s64 x -> rem64 x y = Some (Z.rem x y).
Proof.
  intros Hy Hx. unfold rem64. destruct (Z.eqb_spec y 0); [lia|]. rewrite ck64_ok by (apply quot_s64; assumption). reflexivity.
Qed.

Lemma truncated_quot x y : 0 < y -> truncated x y (Z.quot x y).
Proof.
  intros Hy. pose proof (Z.quot_rem' x y) as E. split; intros Hx.
  - pose proof (Z.rem_bound_pos x y Hx Hy). nia.
  - destruct (Z.eq_dec x 0) as [->|]; [rewrite Z.quot_0_l by lia; lia|].
    pose proof (Z.rem_bound_pos_neg x y Hy ltac:(lia)). nia.
Qed.

Lemma t2u_divides ticks hertz : is_s64 ticks -> 0 < hertz -> (hertz | frequency) ->
  exists q, ticks2units ticks hertz = Some q /\ truncated (ticks * hertz) frequency q.
Proof.
  intros Ht Hh (f & F). unfold frequency in *. unfold ticks2units, frequency.
  rewrite Z.gtb_ltb. assert (0 < f) by nia. assert (hertz <= 1000000000) by nia.
  destruct (Z.ltb_spec 1000000000 hertz); [lia|]. destruct (Z.ltb_spec hertz 1000000000) as [L|L].
  - rewrite div64_ok; [|lia|red; lia]. cbn [bind].
    assert (Q : Z.quot 1000000000 hertz = f) by (rewrite F; apply Z.quot_mul; lia). rewrite Q.
    rewrite div64_ok by assumption. eexists. split; [reflexivity|].
    pose proof (truncated_quot ticks f H) as (A & B). rewrite F. split; intros T.
    + specialize (A ltac:(nia)). nia.
    + specialize (B ltac:(nia)). nia.
  - exists ticks. split; [reflexivity|]. assert (hertz = 1000000000) by lia. subst hertz. split; lia.
Qed.

Lemma t2u_multiple ticks hertz f : is_s64 hertz -> hertz = f * frequency -> 0 < f -> is_s64 (ticks * f) ->
  ticks2units ticks hertz = Some (ticks * f).
Proof.
  intros Hh -> Hf Ht. unfold ticks2units. rewrite Z.gtb_ltb. unfold frequency in *.
  destruct (Z.ltb_spec 1000000000 (f * 1000000000)).
  - rewrite div64_ok; [|lia|assumption]. cbn [bind]. rewrite Z.quot_mul by lia. unfold mul64. apply ck64_ok, Ht.
  - assert (f = 1) by lia. subst f. destruct (Z.ltb_spec (1 * 1000000000) 1000000000); [lia|]. f_equal. lia.
Qed.

Lemma u2t_divides units hertz f : frequency = f * hertz -> 0 < hertz -> is_s64 (units * f) ->
  units2ticks units hertz = Some (units * f).
Proof.
  intros F Hh Hu. unfold units2ticks. rewrite Z.gtb_ltb. unfold frequency in *.
  assert (0 < f) by nia. assert (hertz <= 1000000000) by nia.
  destruct (Z.ltb_spec 1000000000 hertz); [lia|]. destruct (Z.ltb_spec hertz 1000000000) as [L|L].
  - rewrite div64_ok; [|lia|red; lia]. cbn [bind].
    assert (Q : Z.quot 1000000000 hertz = f) by (rewrite F; apply Z.quot_mul; lia). rewrite Q. unfold mul64. apply ck64_ok, Hu.
  - assert (f = 1) by nia. subst f. f_equal. lia.
Qed.

Lemma t2u_exact units hertz f : frequency = f * hertz -> 0 < hertz -> is_s64 (units * f) -> ticks2units (units * f) hertz = Some units.
Proof.
  intros F Hh Hu. unfold ticks2units. rewrite Z.gtb_ltb. unfold frequency in *.
  assert (0 < f) by nia. assert (hertz <= 1000000000) by nia.
  destruct (Z.ltb_spec 1000000000 hertz); [lia|]. destruct (Z.ltb_spec hertz 1000000000) as [L|L].
  - rewrite div64_ok; [|lia|red; lia]. cbn [bind].
    assert (Q : Z.quot 1000000000 hertz = f) by (rewrite F; apply Z.quot_mul; lia). rewrite Q.
    rewrite div64_ok by assumption. rewrite Z.quot_mul by lia. reflexivity.
  - assert (f = 1) by nia. subst f. f_equal. lia.
Qed.

Lemma u2t_multiple units hertz f : is_s64 hertz -> hertz = f * frequency -> 0 < f -> is_s64 units ->
  units2ticks units hertz = Some (Z.quot units f).
Proof.
  intros Hh -> Hf Ht. unfold units2ticks. rewrite Z.gtb_ltb. unfold frequency in *.
  destruct (Z.ltb_spec 1000000000 (f * 1000000000)).
  - rewrite div64_ok; [|lia|assumption]. cbn [bind]. rewrite Z.quot_mul by lia. apply div64_ok; assumption.
  - assert (f = 1) by lia. subst f. destruct (Z.ltb_spec (1 * 1000000000) 1000000000); [lia|]. rewrite Z.quot_1_r. reflexivity.
Qed.

Lemma whole_spec ticks : is_s64 ticks -> ticks2wholeseconds ticks = Some (Z.quot ticks 1000000000).
Proof.
  intros H. unfold ticks2wholeseconds, ticks2units, frequency. cbn [Z.gtb Z.ltb Z.compare Pos.compare Pos.compare_cont].
  rewrite div64_ok; [|lia|red; lia]. cbn [bind]. rewrite div64_ok; [|reflexivity|exact H]. rewrite Z.quot_1_r. reflexivity.
Qed.

Lemma fraction_spec ticks : is_s64 ticks -> ticks2fractionalseconds ticks frequency = Some (Z.rem ticks 1000000000).
Proof.
  intros H. unfold ticks2fractionalseconds. rewrite rem64_ok by (reflexivity || exact H). reflexivity.
Qed.

Lemma seconds2ticks_spec whole fraction : is_s64 (whole * 1000000000) -> is_s64 (whole * 1000000000 + fraction) ->
  seconds2ticks whole fraction frequency = Some (whole * 1000000000 + fraction).
Proof.
  intros H1 H2. unfold seconds2ticks. rewrite (u2t_divides whole 1 1000000000) by (reflexivity || lia || exact H1). cbn [bind].
  unfold units2ticks. rewrite Z.gtb_ltb, Z.ltb_irrefl. cbn [bind]. apply ck64_ok, H2.
Qed.

Lemma split_join ticks : is_s64 ticks -> exists w f, ticks2wholeseconds ticks = Some w /\
  ticks2fractionalseconds ticks frequency = Some f /\ seconds2ticks w f frequency = Some ticks /\
  ticks = w * frequency + f /\ Z.abs f < frequency.
Proof.
  intros H. exists (Z.quot ticks 1000000000), (Z.rem ticks 1000000000).
  split; [apply whole_spec, H|]. split; [apply fraction_spec, H|].
  pose proof (Z.quot_rem' ticks 1000000000) as E. unfold is_s64 in H.
  assert (B : Z.abs (Z.rem ticks 1000000000) < 1000000000) by (apply (Z.rem_bound_abs ticks 1000000000); lia).
  assert (S : 0 <= Z.rem ticks 1000000000 * ticks) by (apply Z.rem_sign_mul; lia).
  assert (Q : is_s64 (Z.quot ticks 1000000000 * 1000000000)) by (red; Z.to_euclidean_division_equations; lia).
  split; [|unfold frequency; split; [lia|exact B]]. rewrite seconds2ticks_spec; [f_equal; lia|exact Q|red; lia].
Qed.

Lemma split_units ticks hertz g : is_s64 ticks -> 0 < hertz -> frequency = g * hertz -> exists w f,
  ticks2wholeseconds ticks = Some w /\ ticks2fractionalseconds ticks hertz = Some f /\
  seconds2ticks w f hertz = Some ((w * hertz + f) * g) /\ truncated (ticks * hertz) frequency (w * hertz + f) /\ Z.abs f < hertz.
Proof.
  intros H Hh F. exists (Z.quot ticks 1000000000).
  pose proof (Z.quot_rem' ticks 1000000000) as E.
  assert (B : Z.abs (Z.rem ticks 1000000000) < 1000000000) by (apply (Z.rem_bound_abs ticks 1000000000); lia).
  assert (S : 0 <= Z.rem ticks 1000000000 * ticks) by (apply Z.rem_sign_mul; lia).
  assert (R : is_s64 (Z.rem ticks 1000000000)) by (red; lia).
  assert (Q : is_s64 (Z.quot ticks 1000000000 * 1000000000)) by (unfold is_s64 in *; Z.to_euclidean_division_equations; lia).
  destruct (t2u_divides (Z.rem ticks 1000000000) hertz R Hh (ex_intro _ g F)) as (f & U & T).
  exists f. split; [apply whole_spec, H|]. split.
  { unfold ticks2fractionalseconds. rewrite rem64_ok by (reflexivity || exact H). exact U. }
  unfold truncated, frequency in *. set (w := Z.quot ticks 1000000000) in *. set (r := Z.rem ticks 1000000000) in *.
  clearbody w r. destruct T as [T1 T2]. assert (G : 0 < g) by nia.
  assert (P : (0 <= r -> f * g <= r < (f + 1) * g) /\ (r <= 0 -> (f - 1) * g < r <= f * g)).
  { split; intros Hr.
    - assert (X : 0 <= r * hertz) by nia. specialize (T1 X). rewrite F in T1. clear - T1 Hh. nia.
    - assert (X : r * hertz <= 0) by nia. specialize (T2 X). rewrite F in T2. clear - T2 Hh. nia. }
  assert (A : 0 <= r /\ 0 <= ticks /\ 0 <= f * g <= r \/ r <= 0 /\ ticks <= 0 /\ r <= f * g <= 0).
  { destruct P as [P1 P2]. destruct (Z.lt_trichotomy r 0) as [L|[L|L]].
    - right. assert (ticks <= 0) by (clear - S L; nia). specialize (P2 ltac:(lia)). split; [lia|]. split; [lia|].
      split; [lia|]. assert (f <= 0) by (clear - P2 L G; nia). clear - H1 G. nia.
    - subst r. specialize (P1 ltac:(lia)). specialize (P2 ltac:(lia)). assert (f * g = 0) by (clear - P1 P2 G; lia). lia.
    - left. assert (0 <= ticks) by (clear - S L; nia). specialize (P1 ltac:(lia)). split; [lia|]. split; [lia|].
      split; [|lia]. assert (0 <= f) by (clear - P1 L G; nia). clear - H1 G. nia. }
  split.
  { unfold seconds2ticks. rewrite (u2t_divides w 1 1000000000) by (reflexivity || lia || exact Q). cbn [bind].
    rewrite (u2t_divides f hertz g) by (exact F || exact Hh || (red; lia)). cbn [bind]. unfold add64.
    replace ((w * hertz + f) * g) with (w * 1000000000 + f * g) by (rewrite F; ring). apply ck64_ok. unfold is_s64 in *. lia. }
  split.
  - replace (ticks * hertz) with (w * hertz * 1000000000 + r * hertz) by (rewrite E; ring).
    assert (W : 0 <= ticks -> 0 <= r \/ ticks = 0) by lia.
    destruct A as [(A1 & A2 & A3)|(A1 & A2 & A3)]; split; intros X.
    + specialize (T1 ltac:(clear - A1 Hh; nia)). lia.
    + assert (ticks = 0 \/ 0 < ticks) as [->|Y] by lia.
      * assert (r = 0) as -> by lia. assert (f * g = 0) by lia. assert (f = 0) as -> by (clear - H0 G; nia). lia.
      * exfalso. assert (w * hertz * 1000000000 + r * hertz = ticks * hertz) by (rewrite E; ring). clear - H0 X Y Hh. nia.
    + assert (ticks = 0 \/ ticks < 0) as [->|Y] by lia.
      * assert (r = 0) as -> by lia. assert (f * g = 0) by lia. assert (f = 0) as -> by (clear - H0 G; nia). lia.
      * exfalso. assert (w * hertz * 1000000000 + r * hertz = ticks * hertz) by (rewrite E; ring). clear - H0 X Y Hh. nia.
    + specialize (T2 ltac:(clear - A1 Hh; nia)). lia.
  - assert (Z.abs (f * g) < hertz * g) by lia. rewrite Z.abs_mul in H0. rewrite (Z.abs_eq g) in H0 by lia. clear - H0 G. nia.
Qed.

(** Rounding. *)
Lemma rounddown_spec ticks hertz : is_s64 ticks -> 0 < hertz -> rounddown ticks hertz = Some (hertz * Z.quot ticks hertz).
Proof.
  intros Ht Hh. unfold rounddown. rewrite rem64_ok by assumption. cbn [bind]. pose proof (Z.quot_rem' ticks hertz) as E.
  destruct (Z.eqb_spec (Z.rem ticks hertz) 0) as [R|R]; [f_equal; lia|].
  assert (X : ticks - Z.rem ticks hertz = hertz * Z.quot ticks hertz) by lia. unfold sub64. rewrite X. apply ck64_ok.
  unfold is_s64 in *. destruct (truncated_quot ticks hertz Hh) as (A & B).
  destruct (Z.le_ge_cases 0 ticks).
  - specialize (A H). assert (0 <= Z.quot ticks hertz) by (apply Z.quot_pos; lia). nia.
  - specialize (B H). assert (Z.quot ticks hertz <= 0) by nia. nia.
Qed.
Lemma roundup_spec ticks hertz : is_s64 ticks -> 0 < hertz ->
  is_s64 hertz -> is_s64 (ticks + hertz) -> is_s64 (ticks - hertz) ->
  exists r, roundup ticks hertz = Some r /\ (hertz | r) /\
    (0 <= ticks -> ticks <= r < ticks + hertz) /\ (ticks <= 0 -> ticks - hertz < r <= ticks).
Proof.
  intros Ht Hh H0 H1 H2. unfold roundup. rewrite rem64_ok by assumption. cbn [bind]. pose proof (Z.quot_rem' ticks hertz) as E.
  destruct (Z.eqb_spec (Z.rem ticks hertz) 0) as [R|R].
  - exists ticks. split; [reflexivity|]. split; [exists (Z.quot ticks hertz); lia|]. lia.
  - assert (X : ticks - Z.rem ticks hertz = hertz * Z.quot ticks hertz) by lia. unfold sub64. rewrite X.
    unfold is_s64 in *. destruct (truncated_quot ticks hertz Hh) as (A & B).
    destruct (Z.ltb_spec ticks 0) as [N|N].
    + specialize (B ltac:(lia)). assert (Z.quot ticks hertz <= 0) by nia. rewrite ck64_ok by (red; nia). cbn [bind]. rewrite ck64_ok by (red; lia). cbn [bind].
      unfold add64. rewrite ck64_ok by (red; nia). eexists. split; [reflexivity|].
      split; [exists (Z.quot ticks hertz - 1); lia|]. split; [lia|]. intros _. nia.
    + specialize (A N). assert (0 <= Z.quot ticks hertz) by (apply Z.quot_pos; lia). rewrite ck64_ok by (red; nia). cbn [bind].
      unfold add64. rewrite ck64_ok by (red; nia). eexists. split; [reflexivity|].
      split; [exists (Z.quot ticks hertz + 1); lia|]. split; [intros _; nia|intros; lia].
Qed.

(** Splitting a clock value. *)
Lemma separate_spec ticks : is_s64 ticks -> ticks <> -9223372036854775808 ->
  separate ticks = Some (ticks / frequency, ticks mod frequency).
Proof.
  intros H N. unfold separate. rewrite whole_spec by exact H. cbn [bind].
  assert (A : abs64 ticks = Some (Z.abs ticks)).
  { unfold abs64. destruct (Z.ltb_spec ticks 0); [rewrite ck64_ok by (red in H |- *; lia)|]; f_equal; lia. }
  rewrite A. cbn [bind]. rewrite fraction_spec by (red in H |- *; lia). cbn [bind]. unfold frequency, is_s64 in *.
  rewrite Z.rem_mod_nonneg by lia. pose proof (Z.mod_pos_bound (Z.abs ticks) 1000000000 ltac:(lia)) as B.
  unfold u64. rewrite (Z.mod_small (Z.abs ticks mod 1000000000)) by lia.
  rewrite Z.geb_leb. destruct (Z.leb_spec 0 ticks).
  - rewrite Z.quot_div_nonneg by lia. rewrite Z.abs_eq by lia. reflexivity.
  - destruct (Z.eqb_spec (Z.abs ticks mod 1000000000) 0) as [E|E].
    + rewrite E. do 2 f_equal; [|rewrite Z.abs_neq in E by lia]; Z.to_euclidean_division_equations; lia.
    + unfold sub64. rewrite ck64_ok by (red; Z.to_euclidean_division_equations; lia). cbn [bind].
      rewrite (Z.mod_small (1000000000 - _)) by lia. rewrite Z.abs_neq in * by lia. do 2 f_equal; Z.to_euclidean_division_equations; lia.
Qed.

Lemma bind_some {A B} (a : A) (f : A -> option B) : bind (Some a) f = f a.
Proof. reflexivity. Qed.

Lemma zulu_epoch gmtime timegm ticks : calendar gmtime timegm -> is_s64 ticks -> ticks <> -9223372036854775808 ->
  exists tm, gmtime (ticks / frequency) = Some tm /\
    let d := Date (year tm + 1900) (month tm + 1) (day tm) (hour tm) (minute tm) (second tm) in
    zulu gmtime ticks = Some (Some (d, ticks mod frequency)) /\
    (-9223372036 * 1000000000 <= ticks -> epoch timegm d (ticks mod frequency) 0 0 = Some ticks).
Proof.
  intros (C & E) H N. unfold zulu. rewrite separate_spec by assumption. cbn [bind].
  assert (R : -9223372037 <= ticks / frequency <= 9223372036) by (unfold is_s64, frequency in *; Z.to_euclidean_division_equations; lia).
  destruct (C (ticks / frequency) ltac:(lia)) as (tm & G & Y & M & T). exists tm. split; [exact G|]. cbv zeta. rewrite G.
  unfold extract. rewrite ck32_ok by (red; lia). cbn [bind]. rewrite ck32_ok by (red; lia). cbn [bind].
  split; [reflexivity|]. intros Lo.
  unfold epoch. cbn [year month day hour minute second].
  replace (year tm + 1900 - 1900) with (year tm) by lia. replace (month tm + 1 - 1) with (month tm) by lia.
  rewrite ck32_ok by (red; lia). cbn [bind]. rewrite ck32_ok by (red; lia). cbn [bind].
  replace (Date (year tm) (month tm) (day tm) (hour tm) (minute tm) (second tm)) with tm by (destruct tm; reflexivity).
  rewrite T. cbn [Z.eqb negb]. rewrite andb_false_r.
  assert (S1 : is_s64 (ticks / frequency * 1000000000)) by (unfold is_s64, frequency in *; Z.to_euclidean_division_equations; lia).
  assert (Q : seconds2ticks (ticks / frequency) 0 1 = Some (ticks / frequency * 1000000000)).
  { unfold seconds2ticks. rewrite (u2t_divides _ 1 1000000000); [|reflexivity|lia|exact S1].
    cbn [bind]. rewrite (u2t_divides _ 1 1000000000); [|reflexivity|lia|red; lia]. cbn [bind].
    unfold add64. rewrite Z.mul_0_l, Z.add_0_r. apply ck64_ok. exact S1. }
  rewrite Q. cbn [bind].
  assert (J : ((ticks / frequency =? -1) && negb ((year tm + 1900 =? 1969) && (month tm + 1 =? 12) && (day tm =? 31)
     && (hour tm =? 23) && (minute tm =? 59) && (second tm =? 59))) = false).
  { destruct (Z.eqb_spec (ticks / frequency) (-1)) as [Q1|Q1]; [|reflexivity].
    rewrite Q1, E in G. injection G as <-. reflexivity. }
  rewrite J. unfold sub64. rewrite !Z.sub_0_r. rewrite ck64_ok by exact S1. cbn [bind]. rewrite Z.sub_0_r.
  rewrite ck64_ok by exact S1. cbn [bind]. f_equal.
  assert (X : ticks / frequency * 1000000000 + ticks mod frequency = ticks) by (unfold frequency; pose proof (Z.div_mod ticks 1000000000); lia).
  rewrite X. unfold s64. rewrite Z.mod_small; [lia|]. red in H. lia.
Qed.

Lemma s32_id x : is_s32 x -> s32 x = x.
Proof. intros H. unfold s32. red in H. rewrite Z.mod_small; lia. Qed.

Lemma duration_spec ticks : is_s64 ticks -> ticks <> -9223372036854775808 ->
  exists s, duration ticks = Some s /\
    (if ticks <? 0 then sign s = -1 else sign s = 1) /\
    0 <= days s /\ 0 <= hours s < 24 /\ 0 <= minutes s < 60 /\ 0 <= seconds s < 60 /\ 0 <= ticks_ s < frequency /\
    Z.abs ticks = ((((days s * 24 + hours s) * 60 + minutes s) * 60 + seconds s) * frequency) + ticks_ s.
Proof.
  intros H N. unfold duration.
  assert (A : (if ticks <? 0 then (let* t := ck_s64 (- ticks) in Some (t, -1)) else Some (ticks, 1)) =
              Some (Z.abs ticks, if ticks <? 0 then -1 else 1)).
  { destruct (Z.ltb_spec ticks 0); [rewrite ck64_ok by (red in H |- *; lia); cbn [bind]|]; do 2 f_equal; lia. }
  rewrite A. cbn [bind]. clear A. set (rc := if ticks <? 0 then -1 else 1).
  assert (Ha : 0 <= Z.abs ticks < 9223372036854775808) by (red in H; lia). set (t := Z.abs ticks) in *. clearbody t.
  unfold frequency. cbn [Z.mul Pos.mul].
  repeat first [rewrite div64_ok; [|lia|] | rewrite rem64_ok; [|lia|] | rewrite bind_some].
  all: try (unfold is_s64; Z.to_euclidean_division_equations; lia).
  eexists. split; [reflexivity|]. cbn [sign days hours minutes seconds ticks_].
  split; [unfold rc; destruct (ticks <? 0); reflexivity|].
  rewrite !s32_id by (unfold is_s32; Z.to_euclidean_division_equations; lia).
  unfold u64. rewrite Z.mod_small by (Z.to_euclidean_division_equations; lia).
  Z.to_euclidean_division_equations; lia.
Qed.

Lemma zonename_spec h : -12 <= h <= 12 -> zonename (h * 3600 * frequency) = Some (zone h).
Proof.
  intros Hh. assert (G : forall k, 0 <= k < Z.of_nat 25 ->
    (match zonename ((k - 12) * 3600 * frequency) with Some x => x =? zone (k - 12) | None => false end) = true).
  { apply all_below. vm_compute. reflexivity. }
  specialize (G (h + 12) ltac:(lia)). replace (h + 12 - 12) with h in G by lia.
  destruct (zonename _) as [x|]; [|discriminate]. apply Z.eqb_eq in G. subst x. reflexivity.
Qed.
Lemma zonename_other ticks : is_s64 ticks -> (forall h, -12 <= h <= 12 -> ticks <> h * 3600 * frequency) -> zonename ticks = Some 74.
Proof.
  intros H N. unfold zonename. replace (mul64 frequency 3600) with (Some 3600000000000) by reflexivity. cbn [bind].
  rewrite rem64_ok by (reflexivity || exact H). cbn [bind]. destruct (Z.eqb_spec (Z.rem ticks 3600000000000) 0) as [E|E]; [|reflexivity].
  rewrite div64_ok by (reflexivity || exact H). cbn [bind]. pose proof (Z.quot_rem' ticks 3600000000000) as Q. rewrite E in Q.
  set (q := Z.quot ticks 3600000000000) in *. unfold add64. rewrite ck64_ok by (unfold is_s64 in *; lia). cbn [bind].
  destruct ((0 <=? q + 12) && (q + 12 <? 25)) eqn:B; [|reflexivity]. exfalso.
  apply andb_true_iff in B. rewrite Z.leb_le, Z.ltb_lt in B. apply (N q); [lia|]. unfold frequency. lia.
Qed.

(** The logical clock. *)
Definition nows (n : nat) : list logical_call := repeat Now n.
Lemma mod_succ x : (x mod 2 ^ 64 + 1) mod 2 ^ 64 = (x + 1) mod 2 ^ 64.
Proof. apply Zplus_mod_idemp_l. Qed.

Lemma logical_nows : forall n start k, 0 <= start < 2 ^ 64 -> 0 <= k ->
  logical_run (Logical ((start + k) mod 2 ^ 64) (2 ^ 64 <=? start + k)) (nows n) =
  (Logical ((start + (k + Z.of_nat n)) mod 2 ^ 64) (2 ^ 64 <=? start + (k + Z.of_nat n)),
   map (fun i => nth_value start (k + Z.of_nat i)) (seq 0 n)).
Proof.
  induction n as [|n IH]; intros start k Hs Hk.
  - cbn [nows repeat logical_run seq map]. rewrite Z.add_0_r. reflexivity.
  - cbn [nows repeat logical_run logical_step counter error].
    change (u64 ((start + k) mod 2 ^ 64 + 1)) with (((start + k) mod 2 ^ 64 + 1) mod 2 ^ 64). rewrite mod_succ.
    replace (start + k + 1) with (start + (k + 1)) by lia.
    assert (St : (if 2 ^ 64 <=? start + k then (Logical ((start + (k + 1)) mod 2 ^ 64) true, [((start + k) mod 2 ^ 64, true)])
      else if (start + (k + 1)) mod 2 ^ 64 =? 0 then (Logical ((start + (k + 1)) mod 2 ^ 64) true, [((start + k) mod 2 ^ 64, false)])
      else (Logical ((start + (k + 1)) mod 2 ^ 64) false, [((start + k) mod 2 ^ 64, false)])) =
      (Logical ((start + (k + 1)) mod 2 ^ 64) (2 ^ 64 <=? start + (k + 1)), [nth_value start k])).
    { unfold nth_value. destruct (Z.leb_spec (2 ^ 64) (start + k)) as [L|L].
      - destruct (Z.leb_spec (2 ^ 64) (start + (k + 1))); [reflexivity|lia].
      - destruct (Z.eqb_spec ((start + (k + 1)) mod 2 ^ 64) 0) as [E|E].
        + destruct (Z.leb_spec (2 ^ 64) (start + (k + 1))) as [L2|L2]; [reflexivity|].
          rewrite Z.mod_small in E by lia. lia.
        + destruct (Z.leb_spec (2 ^ 64) (start + (k + 1))) as [L2|L2]; [|reflexivity].
          exfalso. apply E. assert (start + (k + 1) = 2 ^ 64) by lia. rewrite H. apply Z_mod_same_full. }
    rewrite St. change (repeat Now n) with (nows n). rewrite (IH start (k + 1) Hs ltac:(lia)).
    replace (k + 1 + Z.of_nat n) with (k + Z.of_nat (S n)) by lia. f_equal. cbn [seq map app]. rewrite Z.add_0_r. f_equal.
    rewrite <- seq_shift, map_map. apply map_ext. intros i. f_equal. lia.
Qed.
