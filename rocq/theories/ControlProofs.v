From Coq Require Import ZArith List Bool Lia.
From Verif Require Import CInt CUtil ControlModel ControlSpec.
Import ListNotations.
Local Open Scope Z_scope.

Lemma ck_ok x : is_s32 x -> ck_s32 x = Some x.
Proof.
  intros H. red in H. unfold ck_s32. destruct (Z.leb_spec (-2147483648) x); [|lia].
  destruct (Z.ltb_spec x 2147483648); [reflexivity|lia].
Qed.
Lemma ck_inv x y : ck_s32 x = Some y -> y = x /\ is_s32 x.
Proof.
  unfold ck_s32, is_s32. destruct (Z.leb_spec (-2147483648) x); [|discriminate].
  destruct (Z.ltb_spec x 2147483648); [|discriminate]. intros [= <-]. lia.
Qed.
Lemma bind_inv {A B} (x : option A) (f : A -> option B) b : bind x f = Some b -> exists a, x = Some a /\ f a = Some b.
Proof. destruct x as [a|]; [|discriminate]. intros H. exists a. auto. Qed.
Lemma s16_id x : is_s16 x -> s16 x = x.
Proof. intros H. red in H. unfold s16. rewrite Z.mod_small; lia. Qed.
Lemma s16_range x : is_s16 (s16 x).
Proof. unfold is_s16, s16. pose proof (Z.mod_pos_bound (x + 32768) 65536). lia. Qed.

Lemma gain_inv v g r : apply_gain v g = Some r -> r = gained v g.
Proof.
  unfold apply_gain, gained. destruct (Z.eqb_spec (denominator g) 0) as [D|D]; [congruence|].
  destruct (Z.eqb_spec (numerator g) 0) as [N|N]; [intros [= <-]; rewrite N, Z.mul_0_r, Z.quot_0_l by exact D; reflexivity|].
  destruct (Z.eqb_spec (numerator g) (denominator g)) as [E|E]; [intros [= <-]; rewrite E, Z.quot_mul by exact D; reflexivity|].
  destruct (Z.eqb_spec (denominator g) 1) as [O|O]; [intros H; apply ck_inv in H as (-> & _); rewrite O, Z.quot_1_r; reflexivity|].
  destruct (Z.eqb_spec (numerator g) 1) as [P|P]; [intros H; apply ck_inv in H as (-> & _); rewrite P, Z.mul_1_r; reflexivity|].
  intros H. apply bind_inv in H as (w & H1 & H2). apply ck_inv in H1 as (-> & _). apply ck_inv in H2 as (-> & _). reflexivity.
Qed.

Lemma quot_le x y : y <> 0 -> Z.abs (Z.quot x y) <= Z.abs x.
Proof.
  intros Hy. rewrite <- Z.quot_abs by exact Hy.
  rewrite Z.quot_div_nonneg by lia. apply Z.div_le_upper_bound; [lia|]. nia.
Qed.
Lemma gain_ok v g : denominator g <> 0 -> Z.abs v * most g < 2 ^ 31 ->
  apply_gain v g = Some (gained v g) /\ Z.abs (gained v g) <= Z.abs v * most g.
Proof.
  intros D B. unfold most in *. set (n := numerator g) in *. set (d := denominator g) in *.
  assert (M : Z.abs (v * n) <= Z.abs v * Z.max 1 (Z.abs n)) by (rewrite Z.abs_mul; nia).
  assert (V : Z.abs v <= Z.abs v * Z.max 1 (Z.abs n)) by nia.
  assert (G : Z.abs (gained v g) <= Z.abs v * Z.max 1 (Z.abs n)).
  { unfold gained. fold d n. destruct (Z.eqb_spec d 0); [contradiction|]. pose proof (quot_le (v * n) d D). lia. }
  split; [|exact G]. unfold gained in *. fold d n in G |- *. unfold apply_gain. fold d n.
  destruct (Z.eqb_spec d 0); [contradiction|].
  destruct (Z.eqb_spec n 0) as [N|N]; [rewrite N, Z.mul_0_r, Z.quot_0_l by exact D; reflexivity|].
  destruct (Z.eqb_spec n d) as [E|E]; [rewrite E, Z.quot_mul by exact D; reflexivity|].
  destruct (Z.eqb_spec d 1) as [O|O]; [rewrite O, Z.quot_1_r; apply ck_ok; red; lia|].
  destruct (Z.eqb_spec n 1) as [P|P]; [rewrite P, Z.mul_1_r in *; apply ck_ok; red; lia|].
  rewrite (ck_ok (v * n)) by (red; lia). cbn [bind]. apply ck_ok. red. lia.
Qed.

Definition good (dp : control) : Prop := initialized dp = true -> is_s16 (sample dp) /\ is_s16 (previous dp).

(** What one call does, when it is defined. *)
Lemma controller_inv sp dp target input output dp' out : is_parameters sp -> good dp -> is_s16 target -> is_s16 input ->
  controller sp dp target input output = Some (dp', out) ->
  let before := if initialized dp then dp else Control input 0 0 0 0 0 input true in
  sample dp' = (if filter sp then (sample before + input) / 2 else input) /\
  proportional dp' = target - sample dp' /\
  integral dp' = clamp (- windup sp) (windup sp) (integral before + gained (proportional dp') (ki sp)) /\
  differential dp' = sample dp' - previous before /\
  total dp' = gained (proportional dp') (kp sp) + integral dp' - gained (differential dp') (kd sp) /\
  delta dp' = gained (total dp') (kc sp) /\
  previous dp' = sample dp' /\ initialized dp' = true /\ is_s16 (sample dp') /\
  ~ forbidden sp out /\
  out = (let o := clamp (minimum sp) (maximum sp) (s16 (output + delta dp')) in
         if (minimum sp <? o) && (o <? lower sp) then minimum sp
         else if (upper sp <? o) && (o <? maximum sp) then maximum sp else o).
Proof.
  intros (W1 & W2 & M1 & M2 & M3 & M4 & M5 & _) G Ht Hi H. unfold controller in H.
  set (dp0 := if initialized dp then dp else Control input (proportional dp) 0 (differential dp) (total dp) (delta dp) input true) in H.
  assert (S0 : is_s16 (sample dp0)) by (unfold dp0; destruct (initialized dp) eqn:E; [apply G, E|exact Hi]).
  assert (P0 : is_s16 (previous dp0)) by (unfold dp0; destruct (initialized dp) eqn:E; [apply G, E|exact Hi]).
  apply bind_inv in H as (smp & Hs & H). apply bind_inv in H as (pr & Hp & H). apply ck_inv in Hp as (-> & _).
  apply bind_inv in H as (t1 & Ht1 & H). apply gain_inv in Ht1.
  apply bind_inv in H as (g1 & Hg1 & H). apply gain_inv in Hg1.
  apply bind_inv in H as (i1 & Hi1 & H). apply ck_inv in Hi1 as (Hi1 & _).
  apply bind_inv in H as (i2 & Hi2 & H). apply bind_inv in H as (t2 & Ht2 & H). apply ck_inv in Ht2 as (Ht2 & _).
  apply bind_inv in H as (df & Hdf & H). apply ck_inv in Hdf as (Hdf & _).
  apply bind_inv in H as (g2 & Hg2 & H). apply gain_inv in Hg2.
  apply bind_inv in H as (t3 & Ht3 & H). apply ck_inv in Ht3 as (Ht3 & _).
  apply bind_inv in H as (dl & Hdl & H). apply gain_inv in Hdl.
  apply bind_inv in H as (o1 & Ho & H). apply ck_inv in Ho as (Ho & _).
  assert (E1 : smp = if filter sp then (sample dp0 + input) / 2 else input).
  { destruct (filter sp); [|congruence]. apply bind_inv in Hs as (x & X1 & X2). apply ck_inv in X1 as (-> & _). congruence. }
  assert (Rs : is_s16 smp) by (subst smp; destruct (filter sp); [|exact Hi]; unfold is_s16 in *; Z.to_euclidean_division_equations; lia).
  assert (E2 : i2 = clamp (- windup sp) (windup sp) i1).
  { unfold clamp. rewrite Z.gtb_ltb in Hi2. destruct (Z.ltb_spec (windup sp) i1); [injection Hi2 as <-; lia|].
    rewrite ck_ok in Hi2 by (unfold is_s32 in *; lia). cbn [bind] in Hi2. destruct (Z.ltb_spec i1 (- windup sp)); injection Hi2 as <-; lia. }
  cbv zeta in H. rewrite Z.gtb_ltb in H.
  set (o2 := if s16 o1 <? minimum sp then minimum sp else if maximum sp <? s16 o1 then maximum sp else s16 o1) in H.
  assert (E3 : o2 = clamp (minimum sp) (maximum sp) (s16 o1)).
  { unfold o2, clamp. destruct (Z.ltb_spec (s16 o1) (minimum sp)); [lia|]. destruct (Z.ltb_spec (maximum sp) (s16 o1)); lia. }
  injection H as H1 H2. subst dp'. cbn [sample proportional integral differential total delta previous initialized].
  assert (D0 : sample dp0 = sample (if initialized dp then dp else Control input 0 0 0 0 0 input true) /\
    integral dp0 = integral (if initialized dp then dp else Control input 0 0 0 0 0 input true) /\
    previous dp0 = previous (if initialized dp then dp else Control input 0 0 0 0 0 input true)) by (unfold dp0; destruct (initialized dp); auto).
  destruct D0 as (D1 & D2 & D3). rewrite <- D1, <- D2, <- D3.
  split; [exact E1|]. split; [reflexivity|]. split; [rewrite E2, Hi1, Hg1; reflexivity|]. split; [exact Hdf|].
  split; [lia|]. split; [exact Hdl|]. split; [apply s16_id, Rs|]. split; [reflexivity|]. split; [exact Rs|].
  assert (B : minimum sp <= o2 <= maximum sp) by (rewrite E3; unfold clamp; lia).
  split.
  - rewrite <- H2. unfold forbidden. destruct ((minimum sp <? o2) && (o2 <? lower sp)) eqn:C1.
    + lia.
    + destruct ((upper sp <? o2) && (o2 <? maximum sp)) eqn:C2; [lia|].
      apply andb_false_iff in C1. apply andb_false_iff in C2. rewrite !Z.ltb_ge in C1, C2. lia.
  - rewrite <- H2. rewrite E3, Ho. reflexivity.
Qed.

Lemma controls_inv sp : is_parameters sp -> forall calls dp output dp' out, good dp -> is_calls calls ->
  (initialized dp = true -> - windup sp <= integral dp <= windup sp) ->
  controls sp dp output calls = Some (dp', out) ->
  good dp' /\ (initialized dp' = true -> - windup sp <= integral dp' <= windup sp) /\ (calls <> [] -> initialized dp' = true /\ ~ forbidden sp out).
Proof.
  intros P. induction calls as [|(t, i) calls IH]; intros dp output dp' out G C Hi H.
  - injection H as <- <-. split; [exact G|]. split; [exact Hi|congruence].
  - cbn [controls] in H. apply bind_inv in H as ((dp1, o1) & H1 & H2).
    pose proof (Forall_inv C) as (Ct & Ci). apply Forall_inv_tail in C. cbn [fst snd] in *.
    pose proof (controller_inv sp dp t i output dp1 o1 P G Ct Ci H1) as Q. cbv zeta in Q.
    destruct Q as (Q1 & Q2 & Q3 & Q4 & Q5 & Q6 & Q7 & Q8 & Q9 & Q10 & Q11).
    assert (G1 : good dp1) by (intros _; split; [exact Q9|rewrite Q7; exact Q9]).
    assert (I1 : initialized dp1 = true -> - windup sp <= integral dp1 <= windup sp).
    { intros _. rewrite Q3. unfold clamp. destruct P as (_ & W & _). lia. }
    destruct (IH dp1 o1 dp' out G1 C I1 H2) as (R1 & R2 & R3). split; [exact R1|]. split; [exact R2|]. intros _.
    destruct calls as [|c calls]; [injection H2 as <- <-; auto|]. apply R3. discriminate.
Qed.

(** Moderate parameters never overflow. *)
Lemma most_pos g : 1 <= most g. Proof. unfold most. lia. Qed.
Lemma gain_ok2 v g c : denominator g <> 0 -> Z.abs v <= c -> c * most g < 2 ^ 31 ->
  apply_gain v g = Some (gained v g) /\ Z.abs (gained v g) <= c * most g.
Proof.
  intros D B1 B2. pose proof (most_pos g) as M. assert (Z.abs v * most g <= c * most g) by (apply Z.mul_le_mono_nonneg_r; lia).
  destruct (gain_ok v g D) as (A & B); [lia|]. split; [exact A|lia].
Qed.
Lemma controller_defined sp dp target input output : is_parameters sp -> moderate sp -> good dp ->
  (initialized dp = true -> - windup sp <= integral dp <= windup sp) -> is_s16 target -> is_s16 input -> is_s16 output ->
  exists r, controller sp dp target input output = Some r.
Proof.
  intros (W1 & W2 & M1 & M2 & M3 & M4 & M5 & _) (D1 & D2 & D3 & D4 & B1 & B2) G HI Ht Hi Ho. unfold controller.
  set (dp0 := if initialized dp then dp else Control input (proportional dp) 0 (differential dp) (total dp) (delta dp) input true).
  assert (S0 : is_s16 (sample dp0)) by (unfold dp0; destruct (initialized dp) eqn:E; [apply G, E|exact Hi]).
  assert (P0 : is_s16 (previous dp0)) by (unfold dp0; destruct (initialized dp) eqn:E; [apply G, E|exact Hi]).
  assert (I0 : - windup sp <= integral dp0 <= windup sp) by (unfold dp0; destruct (initialized dp) eqn:E; [apply HI; reflexivity|cbn; lia]).
  clearbody dp0. pose proof (most_pos (kp sp)) as P1. pose proof (most_pos (ki sp)) as P2. pose proof (most_pos (kd sp)) as P3. pose proof (most_pos (kc sp)) as P4.
  assert (Sm : exists s, (if filter sp then (let* s := ck_s32 (sample dp0 + input) in Some (s / 2)) else Some input) = Some s /\ is_s16 s).
  { destruct (filter sp); [|exists input; auto]. rewrite ck_ok by (unfold is_s16, is_s32 in *; lia). cbn [bind]. eexists. split; [reflexivity|].
    unfold is_s16 in *. Z.to_euclidean_division_equations; lia. }
  destruct Sm as (s & -> & Rs). cbn [bind]. unfold is_s16, is_s32 in *.
  rewrite ck_ok by (red; lia). cbn [bind].
  set (T := 65535 * most (kp sp) + windup sp + 65535 * most (kd sp)) in *.
  assert (T0 : 0 <= T) by (unfold T; lia). assert (TT : T <= T * most (kc sp)) by (clear -T0 P4; nia).
  assert (Ap : Z.abs (target - s) <= 65535) by lia.
  destruct (gain_ok2 (target - s) (kp sp) 65535 D1) as (-> & Bp); [assumption|lia|]. cbn [bind].
  destruct (gain_ok2 (target - s) (ki sp) 65535 D2) as (-> & Bi); [assumption|lia|]. cbn [bind].
  rewrite ck_ok by (red; lia). cbn [bind]. set (i1 := integral dp0 + gained (target - s) (ki sp)) in *.
  assert (I2 : exists i2, (if i1 >? windup sp then Some (windup sp)
      else let* w := ck_s32 (- windup sp) in Some (if i1 <? w then w else i1)) = Some i2 /\ - windup sp <= i2 <= windup sp).
  { rewrite Z.gtb_ltb. destruct (Z.ltb_spec (windup sp) i1); [exists (windup sp); split; [reflexivity|lia]|].
    rewrite ck_ok by (red; lia). cbn [bind]. eexists. split; [reflexivity|]. destruct (Z.ltb_spec i1 (- windup sp)); lia. }
  destruct I2 as (i2 & -> & R2). cbn [bind]. rewrite ck_ok by (red; lia). cbn [bind]. rewrite ck_ok by (red; lia). cbn [bind].
  assert (Ad : Z.abs (s - previous dp0) <= 65535) by lia.
  destruct (gain_ok2 (s - previous dp0) (kd sp) 65535 D3) as (-> & Bd); [assumption|lia|]. cbn [bind].
  set (t3 := gained (target - s) (kp sp) + i2 - gained (s - previous dp0) (kd sp)).
  assert (At : Z.abs t3 <= T) by (unfold t3, T; lia).
  rewrite ck_ok by (red; lia). cbn [bind].
  destruct (gain_ok2 t3 (kc sp) T D4) as (-> & Bc); [assumption|lia|]. cbn [bind].
  rewrite ck_ok by (red; lia). cbn [bind]. eexists. reflexivity.
Qed.

Lemma controls_defined sp : is_parameters sp -> moderate sp -> forall calls dp output, good dp -> is_calls calls -> is_s16 output ->
  (initialized dp = true -> - windup sp <= integral dp <= windup sp) ->
  exists r, controls sp dp output calls = Some r.
Proof.
  intros P M. induction calls as [|(t, i) calls IH]; intros dp output G C Ho Hi; [eexists; reflexivity|].
  pose proof (Forall_inv C) as (Ct & Ci). apply Forall_inv_tail in C. cbn [fst snd controls] in *.
  destruct (controller_defined sp dp t i output P M G Hi Ct Ci Ho) as ((dp1, o1) & E). rewrite E. cbn [bind].
  pose proof (controller_inv sp dp t i output dp1 o1 P G Ct Ci E) as Q. cbv zeta in Q.
  destruct Q as (Q1 & Q2 & Q3 & Q4 & Q5 & Q6 & Q7 & Q8 & Q9 & Q10 & Q11). apply IH.
  - intros _. split; [exact Q9|rewrite Q7; exact Q9].
  - exact C.
  - destruct P as (W1 & W2 & M1 & M2 & M3 & M4 & M5 & _). unfold forbidden in Q10. unfold is_s16 in *. lia.
  - intros _. rewrite Q3. unfold clamp. destruct P as (_ & W & _). lia.
Qed.
