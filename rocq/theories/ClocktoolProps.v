(** Property C101. *)

From Coq Require Import ZArith List Bool Lia String.
From Verif Require Import CInt CUtil NumberModel NumberSpec NumberProofs NumberProps OptionModel TimeModel TimeSpec TimeProofs TimeProps PinSpec ClocktoolModel ClocktoolSpec ClocktoolProofs.
Import ListNotations.
Local Open Scope Z_scope.

(** elapsedsleep, with a delay in units of which a whole number of nanoseconds is one: it
    sleeps just so long, or yields if it is zero. Without the second argument the unit is a
    second; without any it yields. *)
Theorem C101_sleep : forall a delay b units f, numeral a delay -> 0 <= delay -> numeral b units -> 0 < units -> 1000000000 = f * units -> delay * 1000000000 < 2 ^ 63 ->
  elapsedsleep [a; b] = Some (0, [if delay =? 0 then Yield else Sleep (delay * f)]) /\
  elapsedsleep [a] = Some (0, [if delay =? 0 then Yield else Sleep (delay * 1000000000)]) /\
  elapsedsleep [] = Some (0, [Yield]).
Proof.
  intros a delay b units f Na D Nb U F B. change (2 ^ 63) with 9223372036854775808 in B. assert (Fp : 0 < f) by nia. assert (Ul : units <= 1000000000) by nia. assert (Fl : f <= 1000000000) by nia.
  assert (Oa : optional (Some a) 0 0 = Some delay) by (apply optional_some; [exact Na|change (2 ^ 63) with 9223372036854775808; lia|change (2 ^ 63) with 9223372036854775808; lia]).
  assert (Ob : optional (Some b) 1 1 = Some units) by (apply optional_some; [exact Nb|change (2 ^ 63) with 9223372036854775808; lia|change (2 ^ 63) with 9223372036854775808; lia]).
  unfold elapsedsleep. cbn [nth_error]. rewrite Oa, Ob. split; [|split; [|reflexivity]].
  - destruct (Z.eqb_spec delay 0) as [->|N]; [reflexivity|]. rewrite (u2t_divides delay units f F U) by (unfold is_s64; nia). cbn [bind]. destruct (Z.leb_spec (delay * f) 0); [nia|reflexivity].
  - cbn [optional]. destruct (Z.eqb_spec delay 0) as [->|N]; [reflexivity|]. rewrite (u2t_divides delay 1 1000000000) by (unfold is_s64; reflexivity || lia). cbn [bind].
    destruct (Z.leb_spec (delay * 1000000000) 0); [lia|reflexivity].
Qed.
Print Assumptions C101_sleep.

(** elapsedtime and epochtime, for any time after the clock began that there is: the number of
    whole units that have passed is printed. *)
Theorem C101_tell : forall s n a units, 0 <= s -> 0 <= n < 1000000000 -> 0 < s * 1000000000 + n < 2 ^ 63 -> numeral a units -> 0 < units -> (units | 1000000000) ->
  telltime (Some (s, n)) [a] = Some (0, [(s * 1000000000 + n) * units / 1000000000]) /\ telltime (Some (s, n)) [] = Some (0, [s]).
Proof.
  intros s n a units S N B Na U D. change (2 ^ 63) with 9223372036854775808 in B.
  assert (Ul : units <= 1000000000) by (apply Z.divide_pos_le in D; lia).
  assert (T : time_generic (Some (s, n)) = Some (s * 1000000000 + n)) by (apply joined; [exact S|exact N|unfold is_s64, frequency; lia]).
  assert (Q : forall u, 0 < u -> (u | 1000000000) -> ticks2units (s * 1000000000 + n) u = Some ((s * 1000000000 + n) * u / 1000000000)).
  { intros u Hu Du. destruct (C27_ticks_to_units (s * 1000000000 + n) u) as (q & E & (Tr & _)); [unfold is_s64; lia|exact Hu|exact Du|].
    rewrite E. f_equal. apply Z.div_unique with (r := (s * 1000000000 + n) * u - q * 1000000000); [|lia]. left. unfold frequency in Tr. assert (0 <= (s * 1000000000 + n) * u) by nia. lia. }
  unfold telltime. cbn [nth_error]. split.
  - rewrite (optional_some a units 1 1 Na) by (change (2 ^ 63) with 9223372036854775808; lia). rewrite T. cbn [bind]. destruct (Z.eqb_spec (s * 1000000000 + n) 0); [lia|]. rewrite Q by assumption. reflexivity.
  - cbn [optional]. rewrite T. cbn [bind]. destruct (Z.eqb_spec (s * 1000000000 + n) 0); [lia|]. rewrite Q by (lia || apply Z.divide_1_l). cbn [bind]. do 3 f_equal.
    rewrite Z.mul_1_r. apply (now_parts s n N).
Qed.
Print Assumptions C101_tell.

(** What is no numeral, a delay that is negative, and a unit that is not positive are refused:
    nothing is done, printed or waited for. *)
Theorem C101_usage : forall a, a <> [] ->
  ((forall n, numeral a n -> n < 0) -> forall more, elapsedsleep (a :: more) = Some (1, [])) /\
  ((forall n, numeral a n -> n < 1) -> (forall gettime more, telltime gettime (a :: more) = Some (1, [])) /\
     forall first more, elapsedsleep (first :: a :: more) = Some (1, [])).
Proof.
  intros a N. split.
  - intros H more. unfold elapsedsleep. cbn [nth_error]. rewrite (optional_bad a 0 0 N H) by (change (2 ^ 63) with 9223372036854775808; lia). reflexivity.
  - intros H. pose proof (optional_bad a 1 1 N H ltac:(change (2 ^ 63) with 9223372036854775808; lia)) as E. split.
    + intros gettime more. unfold telltime. cbn [nth_error]. rewrite E. reflexivity.
    + intros first more. unfold elapsedsleep. cbn [nth_error]. rewrite E. destruct (optional (Some first) 0 0); reflexivity.
Qed.
Print Assumptions C101_usage.

(** zulu prints the date that the C library gives for the second, with the nanoseconds, as ISO
    8601 has it. *)
Theorem C101_zulu : forall s n gmtime d, 0 <= s -> 0 <= n < 1000000000 -> s * 1000000000 + n < 2 ^ 63 -> gmtime s = Some (broken_down d) -> plain d ->
  zulu_main (Some (s, n)) gmtime = Some (0, iso d n ++ zone true 0 0 ++ newline).
Proof.
  intros s n gm d S N B G P. change (2 ^ 63) with 9223372036854775808 in B. unfold zulu_main.
  rewrite joined by (assumption || (unfold is_s64, frequency; lia)). cbn [bind]. destruct (now_parts s n N) as (E1 & E2). unfold frequency at 2 in E1.
  destruct (Z.ltb_spec (s * frequency + n) 0) as [L|L]; [unfold frequency in L; lia|].
  rewrite (zulu_plain gm (s * frequency + n) d); [|unfold is_s64, frequency; lia|exact L|exact P|rewrite (proj1 (now_parts s n N)); exact G].
  cbn [bind]. rewrite E2, (moment_iso d n P N). reflexivity.
Qed.
Print Assumptions C101_zulu.

(** And so does juliet, with the offset of the time zone if that is a whole number of hours. *)
Theorem C101_juliet : forall s n localtime d hours, 0 <= s -> 0 <= n < 1000000000 -> s * 1000000000 + n < 2 ^ 63 -> localtime s = Some (broken_down d) -> plain d -> -99 <= hours <= 99 ->
  juliet_main (Some (s, n)) localtime (hours * 3600 * 1000000000) = Some (0, iso d n ++ zone (0 <=? hours) (Z.abs hours) 0 ++ newline).
Proof.
  intros s n lt d h S N B G P H. change (2 ^ 63) with 9223372036854775808 in B. unfold juliet_main.
  rewrite joined by (assumption || (unfold is_s64, frequency; lia)). cbn [bind]. destruct (now_parts s n N) as (E1 & E2).
  destruct (Z.ltb_spec (s * frequency + n) 0) as [L|L]; [unfold frequency in L; lia|].
  unfold ticks2wholeseconds. rewrite (t2u_exact (h * 3600) 1 1000000000) by (unfold is_s64; reflexivity || lia). cbn [bind].
  rewrite abs_s32 by (unfold is_s32; lia). cbn [bind].
  rewrite (zulu_plain lt (s * frequency + n) d); [|unfold is_s64, frequency; lia|exact L|exact P|rewrite E1; exact G].
  cbn [bind]. rewrite E2, (moment_iso d n P N). do 3 f_equal. unfold zone, newline.
  replace (Z.abs (h * 3600)) with (Z.abs h * 3600) by lia. rewrite Z.quot_mul, Z.rem_mul by lia.
  rewrite !padded_ok by (lia || (change (10 ^ Z.of_nat 2) with 100; lia)).
  replace (h * 3600 * 1000000000 <? 0) with (negb (0 <=? h)) by (destruct (Z.leb_spec 0 h); destruct (Z.ltb_spec (h * 3600 * 1000000000) 0); cbn; reflexivity || lia).
  destruct (0 <=? h); cbn [negb app]; rewrite <- ?app_assoc; reflexivity.
Qed.
Print Assumptions C101_juliet.

(** But not otherwise: what should be the minutes are the seconds beyond the hours. For any
    zone that is some hours and minutes from UTC, what is printed is not its offset; half past
    five is +05:1800. *)
Theorem C101_zone_refuted : forall s n localtime d hours minutes, 0 <= s -> 0 <= n < 1000000000 -> s * 1000000000 + n < 2 ^ 63 -> localtime s = Some (broken_down d) -> plain d ->
  0 <= hours <= 99 -> 0 < minutes < 60 ->
  exists text, juliet_main (Some (s, n)) localtime ((hours * 60 + minutes) * 60 * 1000000000) = Some (0, text) /\ text <> iso d n ++ zone true hours minutes ++ newline /\
    (hours = 5 -> minutes = 30 -> text = iso d n ++ PinSpec.text "+05:1800" ++ newline).
Proof.
  intros s n lt d h m S N B G P H M. change (2 ^ 63) with 9223372036854775808 in B. unfold juliet_main.
  rewrite joined by (assumption || (unfold is_s64, frequency; lia)). cbn [bind]. destruct (now_parts s n N) as (E1 & E2).
  destruct (Z.ltb_spec (s * frequency + n) 0) as [L|L]; [unfold frequency in L; lia|].
  unfold ticks2wholeseconds. rewrite (t2u_exact ((h * 60 + m) * 60) 1 1000000000) by (unfold is_s64; reflexivity || lia). cbn [bind].
  rewrite abs_s32 by (unfold is_s32; lia). cbn [bind].
  rewrite (zulu_plain lt (s * frequency + n) d); [|unfold is_s64, frequency; lia|exact L|exact P|rewrite E1; exact G].
  cbn [bind]. rewrite E2, (moment_iso d n P N). eexists. split; [reflexivity|].
  rewrite Z.abs_eq by lia. rewrite Z.quot_div_nonneg, Z.rem_mod_nonneg by lia.
  assert (Q : (h * 60 + m) * 60 / 3600 = h) by (symmetry; apply Z.div_unique with (r := m * 60); lia). assert (R : ((h * 60 + m) * 60) mod 3600 = m * 60) by (symmetry; apply Z.mod_unique with (q := h); lia).
  rewrite Q, R. destruct (Z.ltb_spec ((h * 60 + m) * 60 * 1000000000) 0); [lia|]. split.
  - unfold zone, newline. intros X. apply app_inv_head in X. cbn [app] in X. apply (f_equal (@tl Z)) in X. cbn [tl] in X. rewrite (padded_ok 2 h) in X by (lia || (change (10 ^ Z.of_nat 2) with 100; lia)).
    rewrite <- ?app_assoc in X. apply app_inv_head in X. cbn [app] in X. apply (f_equal (@tl Z)) in X. cbn [tl] in X.
    destruct (Z.eq_dec m 1) as [->|M1]; [vm_compute in X; discriminate X|].
    assert (Ln : (3 <= List.length (padded 2 (m * 60)))%nat).
    { unfold padded. rewrite app_length. apply Nat.le_trans with (List.length (utoa 20 (m * 60) [])); [|lia].
      cbn [utoa]. destruct (Z.eqb_spec (m * 60 / 10) 0) as [Z0|Z0]; [exfalso; assert (60 / 10 <= m * 60 / 10) by (apply Z.div_le_mono; lia); change (60 / 10) with 6 in *; lia|].
      destruct (Z.eqb_spec (m * 60 / 10 / 10) 0) as [Z1|Z1].
      { exfalso. assert (120 / 10 / 10 <= m * 60 / 10 / 10) by (apply Z.div_le_mono; [lia|]; apply Z.div_le_mono; lia). change (120 / 10 / 10) with 1 in *. lia. }
      destruct (Z.eqb_spec (m * 60 / 10 / 10 / 10) 0); [cbn; lia|]. destruct (Z.eqb_spec (m * 60 / 10 / 10 / 10 / 10) 0) as [|Z3]; [cbn; lia|].
      exfalso. apply Z3. rewrite !Z.div_div by lia. apply Z.div_small. lia. }
    apply (f_equal (@List.length Z)) in X. rewrite !app_length in X. cbn [decimal List.length app] in X. lia.
  - intros -> ->. rewrite <- ?app_assoc. reflexivity.
Qed.
Print Assumptions C101_zone_refuted.

(** If the clock cannot be read, elapsedtime and epochtime print a number all the same, and the
    exit status is zero. *)
Theorem C101_error_refuted : telltime None [] = Some (0, [-9223372036]) /\ forall gmtime, zulu_main None gmtime = Some (2, []).
Proof. split; reflexivity. Qed.
Print Assumptions C101_error_refuted.

(** A delay that is too long is undefined behaviour; and where the unit does not divide a
    second, elapsedsleep sleeps for another time: 700000000 / 700000000 seconds are 0.7. *)
Theorem C101_range_refuted : elapsedsleep [dec 9223372037] = None /\
  elapsedsleep [dec 700000000; dec 700000000] = Some (0, [Sleep 700000000]) /\ elapsedsleep [dec 3; dec 3] = Some (0, [Sleep 999999999]).
Proof. repeat split; vm_compute; reflexivity. Qed.
Print Assumptions C101_range_refuted.

(** 1500 milliseconds; and the first second of 2000. *)
Example C101_example :
  numeral (dec 1500) 1500 /\ numeral (dec 1000) 1000 /\ elapsedsleep [dec 1500; dec 1000] = Some (0, [Sleep 1500000000]) /\
  telltime (Some (12, 345678901)) [dec 1000] = Some (0, [12345]) /\
  plain (Date 2000 1 1 0 0 0) /\
  zulu_main (Some (946684800, 5)) (fun _ => Some (broken_down (Date 2000 1 1 0 0 0))) = Some (0, text "2000-01-01T00:00:00.000000005+00:00" ++ newline) /\
  juliet_main (Some (946684800, 5)) (fun _ => Some (broken_down (Date 1999 12 31 17 0 0))) (-7 * 3600 * 1000000000) = Some (0, text "1999-12-31T17:00:00.000000005-07:00" ++ newline).
Proof.
  assert (W : forall n, 0 <= n < 2 ^ 64 -> numeral (dec n) n) by (intros n H; apply (numeral_plain [] (dec n) n (Forall_nil _)), dec_body, H).
  split; [apply W; split; [discriminate|reflexivity]|]. split; [apply W; split; [discriminate|reflexivity]|].
  split; [vm_compute; reflexivity|]. split; [vm_compute; reflexivity|]. split; [unfold plain; cbn; lia|]. split; vm_compute; reflexivity.
Qed.
