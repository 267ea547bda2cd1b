(** Properties C27, C28 and C29. *)

From Coq Require Import ZArith List Bool Lia.
From Verif Require Import CInt CUtil TimeModel TimeSpec TimeProofs.
Import ListNotations.
Local Open Scope Z_scope.

(** Ticks to units of a frequency that divides the tick frequency: truncated
    towards zero, so that the error is below one unit. *)
Theorem C27_ticks_to_units : forall ticks hertz, is_s64 ticks -> 0 < hertz -> (hertz | frequency) ->
  exists q, ticks2units ticks hertz = Some q /\ truncated (ticks * hertz) frequency q.
Proof. exact t2u_divides. Qed.
Print Assumptions C27_ticks_to_units.

(** Units to ticks and back is the identity for such a frequency. *)
Theorem C27_units_round_trip : forall units hertz f, frequency = f * hertz -> 0 < hertz -> is_s64 (units * f) ->
  units2ticks units hertz = Some (units * f) /\ ticks2units (units * f) hertz = Some units.
Proof. intros. split; [apply u2t_divides|apply t2u_exact]; assumption. Qed.
Print Assumptions C27_units_round_trip.

(** With a multiple of the tick frequency it is the other way round. *)
Theorem C27_multiple_round_trip : forall ticks hertz f,
  is_s64 hertz -> hertz = f * frequency -> 0 < f -> is_s64 (ticks * f) ->
  ticks2units ticks hertz = Some (ticks * f) /\ units2ticks (ticks * f) hertz = Some ticks.
Proof.
  intros ticks hertz f H1 H2 H3 H4. split; [apply t2u_multiple; assumption|].
  rewrite (u2t_multiple _ hertz f) by assumption. rewrite Z.quot_mul by lia. reflexivity.
Qed.
Print Assumptions C27_multiple_round_trip.

(** Splitting into whole and fractional seconds loses nothing. *)
Theorem C27_seconds : forall ticks, is_s64 ticks -> exists w f,
  ticks2wholeseconds ticks = Some w /\ ticks2fractionalseconds ticks frequency = Some f /\
  seconds2ticks w f frequency = Some ticks /\ ticks = w * frequency + f /\ Z.abs f < frequency.
Proof. exact split_join. Qed.
Print Assumptions C27_seconds.

(** In coarser units, such as milliseconds, the two parts are together the truncated
    number of units, the fraction is less than a second, and joining them gives the
    ticks of that many units. *)
Theorem C27_fraction : forall ticks hertz g, is_s64 ticks -> 0 < hertz -> frequency = g * hertz -> exists w f,
  ticks2wholeseconds ticks = Some w /\ ticks2fractionalseconds ticks hertz = Some f /\
  seconds2ticks w f hertz = Some ((w * hertz + f) * g) /\
  truncated (ticks * hertz) frequency (w * hertz + f) /\ Z.abs f < hertz.
Proof. exact split_units. Qed.
Print Assumptions C27_fraction.

Example C27_fraction_example :
  ticks2wholeseconds (-1234567890) = Some (-1) /\ ticks2fractionalseconds (-1234567890) 1000 = Some (-234) /\
  seconds2ticks (-1) (-234) 1000 = Some (-1234000000).
Proof. repeat split; reflexivity. Qed.

(** Rounding down gives the nearest multiple towards zero, rounding up the nearest
    one away from zero. *)
Theorem C27_rounddown : forall ticks hertz, is_s64 ticks -> 0 < hertz ->
  exists q, rounddown ticks hertz = Some (hertz * q) /\ truncated ticks hertz q.
Proof.
  intros ticks hertz H1 H2. exists (Z.quot ticks hertz). split; [apply rounddown_spec; assumption|apply truncated_quot, H2].
Qed.
Print Assumptions C27_rounddown.

Theorem C27_roundup : forall ticks hertz, is_s64 ticks -> 0 < hertz ->
  is_s64 hertz -> is_s64 (ticks + hertz) -> is_s64 (ticks - hertz) ->
  exists r, roundup ticks hertz = Some r /\ (hertz | r) /\
    (0 <= ticks -> ticks <= r < ticks + hertz) /\ (ticks <= 0 -> ticks - hertz < r <= ticks).
Proof. exact roundup_spec. Qed.
Print Assumptions C27_roundup.

(** For a frequency that does not divide the tick frequency the error is not below
    one unit: a second is a billion units of 0.7 GHz, and there are a billion and
    not one and a half billion units of 1.5 GHz in it. *)
Theorem C27_other_frequencies_refuted :
  ticks2units frequency 700000000 = Some 1000000000 /\ ticks2units frequency 1500000000 = Some 1000000000.
Proof. split; vm_compute; reflexivity. Qed.
Print Assumptions C27_other_frequencies_refuted.

Example C27_example :
  ticks2units 1999999 1000000 = Some 1999 /\ ticks2units (-1999999) 1000000 = Some (-1999) /\
  units2ticks 5 1000 = Some 5000000 /\ roundup 1500 1000 = Some 2000 /\ roundup (-1500) 1000 = Some (-2000) /\
  rounddown (-1500) 1000 = Some (-1000) /\ ticks2units 5 0 = None /\ (1000000 | frequency).
Proof. repeat (split; [vm_compute; reflexivity|]). exists 1000. reflexivity. Qed.

(** A clock value is split into whole seconds, rounded towards minus infinity, and
    a fraction from zero to below a second. *)
Theorem C28_separate : forall ticks, is_s64 ticks -> ticks <> TIME_ERROR ->
  separate ticks = Some (ticks / frequency, ticks mod frequency) /\
  ticks = frequency * (ticks / frequency) + ticks mod frequency /\ 0 <= ticks mod frequency < frequency.
Proof.
  intros ticks H N. split; [apply separate_spec; assumption|]. split; [apply Z.div_mod; discriminate|apply Z.mod_pos_bound; reflexivity].
Qed.
Print Assumptions C28_separate.

(** A duration is split into fields in their ranges that sum up to it. *)
Theorem C28_duration : forall ticks, is_s64 ticks -> ticks <> TIME_ERROR ->
  exists s, duration ticks = Some s /\
    (if ticks <? 0 then sign s = -1 else sign s = 1) /\
    0 <= days s /\ 0 <= hours s < 24 /\ 0 <= minutes s < 60 /\ 0 <= seconds s < 60 /\ 0 <= ticks_ s < frequency /\
    Z.abs ticks = ((((days s * 24 + hours s) * 60 + minutes s) * 60 + seconds s) * frequency) + ticks_ s.
Proof. exact duration_spec. Qed.
Print Assumptions C28_duration.

(** The most negative value, which is also the error value, cannot be negated. *)
Theorem C28_most_negative_refuted : separate TIME_ERROR = None /\ duration TIME_ERROR = None.
Proof. split; vm_compute; reflexivity. Qed.
Print Assumptions C28_most_negative_refuted.

(** With a library whose timegm undoes its gmtime_r, a clock value turned into a date
    (counting years from 0 and months from 1) and fraction is given back by the inverse function, also before 1970, and also
    for the second whose number is the library's error value. (The last second that
    can be represented before 1677 overflows.) *)
Theorem C28_date_round_trip : forall gmtime timegm ticks, calendar gmtime timegm ->
  is_s64 ticks -> ticks <> TIME_ERROR ->
  exists tm, gmtime (ticks / frequency) = Some tm /\
    let d := Date (year tm + 1900) (month tm + 1) (day tm) (hour tm) (minute tm) (second tm) in
    zulu gmtime ticks = Some (Some (d, ticks mod frequency)) /\
    (-9223372036 * 1000000000 <= ticks -> epoch timegm d (ticks mod frequency) 0 0 = Some ticks).
Proof. exact zulu_epoch. Qed.
Print Assumptions C28_date_round_trip.

(** The zone names: letters for whole hours, J for anything else. *)
Theorem C28_zonename : forall ticks, is_s64 ticks ->
  (forall h, -12 <= h <= 12 -> ticks = h * 3600 * frequency -> zonename ticks = Some (zone h)) /\
  ((forall h, -12 <= h <= 12 -> ticks <> h * 3600 * frequency) -> zonename ticks = Some 74).
Proof. intros ticks H. split; [intros h Hh ->; apply zonename_spec, Hh|apply zonename_other, H]. Qed.
Print Assumptions C28_zonename.

Example C28_example :
  separate (-1) = Some (-1, 999999999) /\ separate (-2000000000) = Some (-2, 0) /\
  duration (-90061000000007) = Some (Span (-1) 1 1 1 1 7) /\
  map zone [-12; -1; 0; 1; 9; 10; 12] = [89; 78; 90; 65; 73; 75; 77] /\ zonename (-7 * 3600 * frequency) = Some 84.
Proof. vm_compute. auto. Qed.
(** A (toy) library that meets the hypothesis: the seconds are kept in the day. *)
Example C28_calendar_example : calendar
  (fun s => if s =? -1 then Some (Date 69 11 31 23 59 59) else Some (Date 0 0 s 0 0 0))
  (fun d => if year d =? 69 then (-1, 0) else (day d, 0)).
Proof.
  split; [|reflexivity]. intros s Hs. destruct (Z.eqb_spec s (-1)) as [->|N]; eexists; (split; [reflexivity|]); cbn; repeat split; lia.
Qed.

(** Calls of the logical clock, by any threads, in the order in which they enter the
    critical section: the k-th value after it was last set is k more, modulo 2^64,
    and an overflow is reported from the first value that wrapped on. *)
Theorem C29_logical_clock : forall start n, 0 <= start < 2 ^ 64 ->
  snd (logical_run logical_init (Set_ start :: repeat Now n)) =
  map (fun i => nth_value start (Z.of_nat i)) (seq 0 n).
Proof.
  intros start n H. cbn [logical_run logical_step].
  pose proof (logical_nows n start 0 H ltac:(lia)) as L. rewrite Z.add_0_r in L.
  rewrite Z.mod_small in L by exact H. destruct (Z.leb_spec (2 ^ 64) start); [lia|].
  unfold nows in L. rewrite L. reflexivity.
Qed.
Print Assumptions C29_logical_clock.

(** From the beginning: as long as no overflow is reported, every value is larger
    than all values before it: hence values are unique. *)
Theorem C29_increasing : forall n i j v w, (i < j)%nat ->
  nth_error (snd (logical_run logical_init (repeat Now n))) i = Some (v, false) ->
  nth_error (snd (logical_run logical_init (repeat Now n))) j = Some (w, false) ->
  v < w.
Proof.
  intros n i j v w Hij.
  pose proof (logical_nows n 0 0 ltac:(lia) ltac:(lia)) as L. unfold nows in L.
  change (Logical ((0 + 0) mod 2 ^ 64) (2 ^ 64 <=? 0 + 0)) with logical_init in L. rewrite L. cbn [snd].
  intros Hi Hj.
  assert (X : forall k x, nth_error (map (fun i => nth_value 0 (0 + Z.of_nat i)) (seq 0 n)) k = Some (x, false) -> x = Z.of_nat k).
  { clear. intros k x H. destruct (Nat.lt_ge_cases k n) as [Lk|Lk].
    - rewrite (map_nth_error _ k (seq 0 n) (d := k)) in H.
      + injection H as H1 H2. apply Z.leb_gt in H2. cbn [Z.add] in H1. rewrite Z.mod_small in H1 by lia. lia.
      + rewrite nth_error_nth' with (d := O) by (rewrite seq_length; lia). rewrite seq_nth by lia. reflexivity.
    - assert (E : nth_error (map (fun i => nth_value 0 (0 + Z.of_nat i)) (seq 0 n)) k = None)
        by (apply nth_error_None; rewrite map_length, seq_length; lia). congruence. }
  apply X in Hi. apply X in Hj. lia.
Qed.
Print Assumptions C29_increasing.

(** The overflow is reported until it is acknowledged, which does not disturb the
    sequence of values. *)
Theorem C29_reset : forall s, fst (logical_step s Reset) = Logical (counter s) false /\
  snd (logical_step s Reset) = [].
Proof. intros s. split; reflexivity. Qed.
Print Assumptions C29_reset.

Example C29_example :
  snd (logical_run logical_init [Now; Now; Set_ (2 ^ 64 - 2); Now; Now; Now; Now; Reset; Now]) =
  [(0, false); (1, false); (2 ^ 64 - 2, false); (2 ^ 64 - 1, false); (0, true); (1, true); (2, false)].
Proof. vm_compute. reflexivity. Qed.
