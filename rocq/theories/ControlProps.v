(** Properties C38 and C39. *)

From Coq Require Import ZArith List Bool Lia.
From Verif Require Import CInt CUtil ControlModel ControlSpec ControlProofs ControlProofs2.
Import ListNotations.
Local Open Scope Z_scope.

(** The wave of a modulator, tick by tick, from the start. *)
Theorem C38_wave : forall d n, 0 <= d <= 255 ->
  let output := levels (modulator_start (modulator_init d)) false n in
  (d = 0 -> output = repeat false n) /\
  (d = 255 -> output = repeat true n) /\
  (0 < d < 255 -> exists a b, divided d a b /\ output = map (fun i => wave a b (Z.of_nat i)) (seq 0 n)).
Proof.
  intros d n H. cbv zeta. pose proof (set_rest (Modulator 0 DUTY_MAX 0 0 DUTY_MAX false false false) d) as (R1 & R2 & R3 & R4 & R5).
  pose proof (boundary (modulator_start (modulator_init d)) d H R3 R5 (set_ton _ d) n) as B.
  change (state (modulator_start (modulator_init d))) with (state (modulator_init d)) in B. unfold modulator_init in *. rewrite R4 in B.
  cbn [state] in B. rewrite B. split; [intros ->; reflexivity|]. split; [intros ->; reflexivity|]. intros D.
  exists (fst (settings d)), (snd (settings d)). split; [apply settings_divided, D|].
  destruct (Z.eqb_spec d 0); [lia|]. destruct (Z.eqb_spec d 255); [lia|]. reflexivity.
Qed.
Print Assumptions C38_wave.

(** In any whole period of that wave, wherever it begins, it is on for [a]+1 ticks:
    compared with the duty that is off by (255-2d)/255 of one tick: the error is less
    than one tick in a period, which is at least 19 ticks. *)
Theorem C38_fraction : forall d a b k, 0 < d < 255 -> divided d a b ->
  let period := a + b + 2 in
  let ticks_on := count (map (fun i => wave a b (Z.of_nat k + Z.of_nat i)) (seq 0 (Z.to_nat period))) in
  19 <= period <= 257 /\ 255 * ticks_on - d * period = 255 - 2 * d /\ Z.abs (255 * ticks_on - d * period) < 255.
Proof.
  intros d a b k D (A & B & E & S). cbv zeta. rewrite (count_wave a b A B k). split; [lia|]. split; nia.
Qed.
Print Assumptions C38_fraction.

(** It is never exactly the duty asked for: every phase lasts a tick too long. *)
Theorem C38_exact_refuted : forall d a b, 0 < d < 255 -> divided d a b -> 255 * (a + 1) <> d * (a + b + 2).
Proof. intros d a b D (A & B & E & S). nia. Qed.
Print Assumptions C38_exact_refuted.

(** A new duty, set at any point of any history, changes nothing during the rest of
    the current on or off phase; then it takes effect with the opposite phase of its
    wave, or for good if it is zero or full. *)
Theorem C38_change : forall d0 history d n, 0 <= d0 <= 255 -> Forall event_ok history -> 0 <= d <= 255 ->
  let '(m, level) := events (modulator_start (modulator_init d0)) false history in
  let rest := Z.to_nat (cycle m) in
  let output := levels (modulator_set m d) level (rest + n) in
  (d = 0 -> output = repeat level rest ++ repeat false n) /\
  (d = 255 -> output = repeat level rest ++ repeat true n) /\
  (0 < d < 255 -> exists a b, divided d a b /\
     output = repeat level rest ++ map (fun i => wave a b ((if level then a + 1 else 0) + Z.of_nat i)) (seq 0 n)).
Proof.
  intros d0 history d n H0 F H.
  pose proof (events_sane history (modulator_start (modulator_init d0)) F) as S.
  assert (S0 : sane (modulator_start (modulator_init d0))).
  { change (sane (modulator_init d0)). apply set_sane; [exact H0|]. unfold sane, DUTY_MAX. cbn. lia. }
  assert (St : state (modulator_start (modulator_init d0)) = false).
  { change (state (modulator_init d0) = false). unfold modulator_init. apply set_rest. }
  rewrite St in S. specialize (S S0). destruct (events _ _ history) as (m, level). destruct S as (S & ->). cbv zeta.
  destruct (set_rest m d) as (R1 & R2 & R3 & R4 & R5). destruct S as (C & _).
  destruct (levels_phase (Z.to_nat (cycle m)) (modulator_set m d) n) as (m' & E & C' & O1 & O2 & T1 & T2 & S' & P'); [rewrite R3; lia|].
  rewrite <- R4. rewrite E. rewrite <- S'.
  assert (T : (ton m', toff m') = settings d) by (rewrite T1, T2; apply set_ton).
  rewrite (boundary m' d H C' ltac:(congruence) T n).
  split; [intros ->; reflexivity|]. split; [intros ->; reflexivity|]. intros D.
  exists (fst (settings d)), (snd (settings d)). split; [apply settings_divided, D|].
  destruct (Z.eqb_spec d 0); [lia|]. destruct (Z.eqb_spec d 255); [lia|]. reflexivity.
Qed.
Print Assumptions C38_change.

(** A client function that fails or asks for the end stops the modulator, which then
    neither changes its idea of the output nor loses a setting. *)
Theorem C38_stop : forall m rc v, rc <= 0 -> snd (callback m rc) = Some v ->
  running (fst (callback m rc)) = false /\ state (fst (callback m rc)) = state m /\ v = negb (state m).
Proof.
  intros m rc v H. unfold callback. destruct (cycle m >? 0); [discriminate|].
  assert (L : (rc <=? 0) = true) by (apply Z.leb_le, H).
  destruct (set m); cbn [state on off ton toff cycle set running]; destruct (state m) eqn:St; rewrite L;
    match goal with |- context [if ?x then _ else _] => destruct x end; cbn; intros [= <-]; rewrite ?St; auto.
Qed.
Print Assumptions C38_stop.

Example C38_example :
  settings 51 = (17, 68) /\ divided 51 17 68 /\ settings 1 = (1, 254) /\ settings 128 = (128, 127) /\
  count (levels (modulator_start (modulator_init 51)) false 87) = 18 /\
  (let '(m, level) := events (modulator_start (modulator_init 51)) false (repeat Tick 10) in
   level = true /\ cycle m = 8 /\ count (levels (modulator_set m 0) true 100) = 8) /\
  snd (callback (modulator_init 51) 0) = Some true.
Proof.
  split; [vm_compute; reflexivity|]. split; [unfold divided; lia|]. split; [vm_compute; reflexivity|].
  split; [vm_compute; reflexivity|]. split; [vm_compute; reflexivity|]. split; vm_compute; auto.
Qed.

(** The output of a controller, whatever the parameters, the samples and the history,
    as long as the arithmetic does not overflow: it is within the limits and outside
    the dead bands, and the integral is within its limit. *)
Theorem C39_bounds : forall sp output calls dp' out, is_parameters sp -> is_calls calls -> calls <> [] ->
  controls sp control_init output calls = Some (dp', out) ->
  ~ forbidden sp out /\ - windup sp <= integral dp' <= windup sp.
Proof.
  intros sp output calls dp' out P C N H.
  destruct (controls_inv sp P calls control_init output dp' out) as (_ & I & B); [intros E; discriminate E|exact C|intros E; discriminate E|exact H|].
  destruct (B N) as (B1 & B2). split; [exact B2|apply I, B1].
Qed.
Print Assumptions C39_bounds.

(** With moderate parameters it never overflows. *)
Theorem C39_defined : forall sp output calls, is_parameters sp -> moderate sp -> is_calls calls -> is_s16 output ->
  exists r, controls sp control_init output calls = Some r.
Proof. intros. apply controls_defined; try assumption; intros E; discriminate E. Qed.
Print Assumptions C39_defined.

(** What each call computes. *)
Theorem C39_pid : forall sp dp target input output dp' out, is_parameters sp ->
  (initialized dp = true -> is_s16 (sample dp) /\ is_s16 (previous dp)) -> is_s16 target -> is_s16 input ->
  controller sp dp target input output = Some (dp', out) ->
  let before := if initialized dp then dp else Control input 0 0 0 0 0 input true in
  sample dp' = (if filter sp then (sample before + input) / 2 else input) /\
  previous dp' = sample dp' /\ is_s16 (sample dp') /\
  integral dp' = clamp (- windup sp) (windup sp) (integral before + gained (target - sample dp') (ki sp)) /\
  delta dp' = gained (gained (target - sample dp') (kp sp) + integral dp' - gained (sample dp' - previous before) (kd sp)) (kc sp) /\
  (is_s16 (output + delta dp') ->
   let o := clamp (minimum sp) (maximum sp) (output + delta dp') in
   (~ forbidden sp o -> out = o) /\ (minimum sp < o < lower sp -> out = minimum sp) /\
   (lower sp <= o -> upper sp < o < maximum sp -> out = maximum sp)).
Proof.
  intros sp dp target input output dp' out P G Ht Hi H. pose proof (controller_inv sp dp target input output dp' out P G Ht Hi H) as Q.
  cbv zeta in *. destruct Q as (Q1 & Q2 & Q3 & Q4 & Q5 & Q6 & Q7 & Q8 & Q9 & Q10 & Q11).
  rewrite Q2 in *. rewrite Q4 in *. rewrite Q5 in Q6.
  split; [exact Q1|]. split; [exact Q7|]. split; [exact Q9|]. split; [exact Q3|]. split; [exact Q6|].
  intros S. rewrite Q11. rewrite s16_id by exact S. set (o := clamp (minimum sp) (maximum sp) (output + delta dp')) in *. unfold forbidden.
  destruct (Z.ltb_spec (minimum sp) o), (Z.ltb_spec o (lower sp)), (Z.ltb_spec (upper sp) o), (Z.ltb_spec o (maximum sp)); cbn [andb]; repeat split; intros; lia.
Qed.
Print Assumptions C39_pid.

(** The default parameters allow every output: a sum that fits is the output. *)
Theorem C39_default : forall dp target input output dp' out,
  (initialized dp = true -> is_s16 (sample dp) /\ is_s16 (previous dp)) -> is_s16 target -> is_s16 input ->
  controller default_parameters dp target input output = Some (dp', out) ->
  is_s16 (output + delta dp') -> out = output + delta dp'.
Proof.
  intros dp target input output dp' out G Ht Hi H S.
  assert (P : is_parameters default_parameters).
  { unfold is_parameters, is_gain, is_s16, is_s32, default_parameters, MAXIMUM_VALUE, MINIMUM_OUTPUT, MAXIMUM_OUTPUT.
    cbn [windup minimum maximum lower upper kp ki kd kc numerator denominator]. lia. }
  destruct (C39_pid default_parameters dp target input output dp' out P G Ht Hi H) as (_ & _ & _ & _ & _ & Q).
  specialize (Q S). cbv zeta in Q. destruct Q as (Q & _). unfold is_s16 in S.
  assert (C : clamp (minimum default_parameters) (maximum default_parameters) (output + delta dp') = output + delta dp').
  { unfold clamp, default_parameters. cbn [minimum maximum]. unfold MINIMUM_OUTPUT, MAXIMUM_OUTPUT. lia. }
  rewrite C in Q. apply Q. unfold forbidden, default_parameters. cbn [minimum maximum lower upper].
  unfold MINIMUM_OUTPUT, MAXIMUM_OUTPUT. lia.
Qed.
Print Assumptions C39_default.

Example C39_default_example : exists dp', controller default_parameters control_init 100 20 7 = Some (dp', 167) /\ delta dp' = 160.
Proof. eexists. split; vm_compute; reflexivity. Qed.

(** With the default parameters the windup limit is the largest value, and the sum it
    should limit overflows: after 65537 calls with an error of 32767. *)
Theorem C39_default_windup_refuted :
  (exists r, controls default_parameters control_init 0 (repeat (32767, 0) 100) = Some r) /\
  controls default_parameters control_init 0 (repeat (32767, 0) (Z.to_nat 65538)) = None.
Proof. split; [eexists; vm_compute; reflexivity|vm_compute; reflexivity]. Qed.
Print Assumptions C39_default_windup_refuted.

(** The sum of output and correction is stored into 16 bits before it is limited:
    asked to go up from an output of 30000, the controller goes down to the minimum. *)
Theorem C39_saturation_refuted :
  let sp := Parameters 1000 0 32767 0 32767 (Gain 1 1) (Gain 0 1) (Gain 0 1) (Gain 1 1) false in
  is_parameters sp /\ moderate sp /\
  exists dp', controller sp control_init 5000 0 30000 = Some (dp', 0) /\ delta dp' = 5000.
Proof.
  cbv zeta. split; [unfold is_parameters, is_gain, is_s16, is_s32; cbn; lia|]. split; [unfold moderate, most; cbn; lia|].
  eexists. split; vm_compute; reflexivity.
Qed.
Print Assumptions C39_saturation_refuted.

Example C39_example :
  let sp := Parameters 1000 (-100) 100 (-50) 50 (Gain 1 2) (Gain 1 4) (Gain 1 1) (Gain 1 1) true in
  is_parameters sp /\ moderate sp /\ is_calls [(100, 0); (100, 20); (100, 60)] /\
  option_map (fun r => (integral (fst r), snd r)) (controls sp control_init 0 [(100, 0); (100, 20); (100, 60)]) = Some (63, 100).
Proof.
  cbv zeta. split; [unfold is_parameters, is_gain, is_s16, is_s32; cbn; lia|]. split; [unfold moderate, most; cbn; lia|].
  split; [unfold is_calls, is_s16; repeat (apply Forall_cons; [cbn; lia|]); apply Forall_nil|]. vm_compute. reflexivity.
Qed.
