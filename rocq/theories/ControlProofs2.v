From Coq Require Import ZArith List Bool Lia.
From Verif Require Import CInt CUtil ControlModel ControlSpec.
Import ListNotations.
Local Open Scope Z_scope.

(** The settings of every duty. *)
Definition settings (d : Z) : Z * Z := let m := modulator_init d in (ton m, toff m).
Lemma settings_divided d : 0 < d < 255 -> divided d (fst (settings d)) (snd (settings d)).
Proof.
  intros H.
  assert (G : forall x, 0 <= x < Z.of_nat 256 -> (if (0 <? x) && (x <? 255) then
     let (a, b) := settings x in (0 <? a) && (0 <? b) && (a * (255 - x) =? b * x) && (17 <=? a + b) && (a + b <=? 255) else true) = true).
  { apply all_below. vm_compute. reflexivity. }
  specialize (G d ltac:(lia)). destruct (Z.ltb_spec 0 d); [|lia]. destruct (Z.ltb_spec d 255); [|lia]. cbn [andb] in G.
  destruct (settings d) as (a, b). cbn [fst snd]. unfold divided. rewrite !andb_true_iff, !Z.ltb_lt, !Z.leb_le, Z.eqb_eq in G. lia.
Qed.
Lemma settings_0 : settings 0 = (0, 255). Proof. reflexivity. Qed.
Lemma settings_255 : settings 255 = (255, 0). Proof. reflexivity. Qed.
Lemma set_ton m d : (ton (modulator_set m d), toff (modulator_set m d)) = settings d.
Proof.
  unfold settings, modulator_init, modulator_set.
  destruct (if d =? 0 then _ else _) as (a, b). reflexivity.
Qed.
Lemma set_rest m d : on (modulator_set m d) = on m /\ off (modulator_set m d) = off m /\ cycle (modulator_set m d) = cycle m /\
  state (modulator_set m d) = state m /\ set (modulator_set m d) = true.
Proof. unfold modulator_set. destruct (if d =? 0 then _ else _) as (a, b). repeat split. Qed.

(** Position in the wave. *)
Definition pos (m : modulator) (a b k : Z) : Prop :=
  0 <= k < a + b + 2 /\ on m = a /\ off m = b /\ set m = false /\ state m = (k <=? a) /\
  cycle m = (if k <=? a then a - k else a + b + 1 - k).
Definition apply_call (call : option bool) (level : bool) : bool := match call with Some v => v | None => level end.

Lemma pos_step m a b k : 0 < a -> 0 < b -> pos m a b k ->
  let '(m', call) := callback m 1 in
  pos m' a b ((k + 1) mod (a + b + 2)) /\ apply_call call (k <=? a) = ((k + 1) mod (a + b + 2) <=? a).
Proof.
  intros Ha Hb (K & H1 & H2 & H3 & H4 & H5). unfold callback. rewrite Z.gtb_ltb, H5.
  destruct (Z.leb_spec k a) as [L|L].
  - destruct (Z.ltb_spec 0 (a - k)).
    + rewrite Z.mod_small by lia. unfold pos. cbn. destruct (Z.leb_spec (k + 1) a); [|lia]. repeat split; try assumption; lia.
    + rewrite H3. assert (k = a) by lia. subst k. rewrite H4, H2, Z.gtb_ltb. destruct (Z.ltb_spec 0 b); [|lia]. cbn [Z.leb Z.compare].
      rewrite Z.mod_small by lia. unfold pos. cbn. destruct (Z.leb_spec (a + 1) a); [lia|]. repeat split; try assumption; lia.
  - destruct (Z.ltb_spec 0 (a + b + 1 - k)).
    + rewrite Z.mod_small by lia. unfold pos. cbn. destruct (Z.leb_spec (k + 1) a); [lia|]. repeat split; try assumption; lia.
    + rewrite H3. assert (k = a + b + 1) by lia. subst k. rewrite H4, H1, Z.gtb_ltb. destruct (Z.ltb_spec 0 a); [|lia]. cbn [Z.leb Z.compare].
      replace (a + b + 1 + 1) with (1 * (a + b + 2)) by lia. rewrite Z_mod_mult. unfold pos. cbn. destruct (Z.leb_spec 0 a); [|lia]. repeat split; try assumption; lia.
Qed.

Lemma levels_wave a b : 0 < a -> 0 < b -> forall n m k, pos m a b (k mod (a + b + 2)) ->
  levels m (k mod (a + b + 2) <=? a) n = map (fun i => wave a b (k + 1 + Z.of_nat i)) (seq 0 n).
Proof.
  intros Ha Hb. induction n as [|n IH]; intros m k P; [reflexivity|]. cbn [levels seq map].
  pose proof (pos_step m a b _ Ha Hb P) as Q. destruct (callback m 1) as (m', call). destruct Q as (Q1 & Q2).
  fold (apply_call call (k mod (a + b + 2) <=? a)). rewrite Q2. rewrite Zplus_mod_idemp_l in *.
  rewrite (IH m' (k + 1) Q1). f_equal.
  - unfold wave. rewrite Z.add_0_r. reflexivity.
  - rewrite <- seq_shift, map_map. apply map_ext. intros i. unfold wave. f_equal. f_equal. lia.
Qed.

(** Constant duties. *)
Definition still (m : modulator) (v : bool) : Prop := set m = false /\ state m = v /\ (if v then off m = 0 else on m = 0).
Lemma levels_still v : forall n m, still m v -> levels m v n = repeat v n.
Proof.
  induction n as [|n IH]; intros m (S1 & S2 & S3); [reflexivity|]. cbn [levels repeat]. unfold callback.
  destruct (cycle m >? 0).
  - f_equal. apply IH. unfold still. cbn. auto.
  - rewrite S1, S2. destruct v.
    + rewrite S3. cbn [Z.gtb Z.compare]. f_equal. apply IH. unfold still. cbn. auto.
    + rewrite S3. cbn [Z.gtb Z.compare]. f_equal. apply IH. unfold still. cbn. auto.
Qed.

(** The rest of a phase. *)
Lemma levels_phase : forall c m n, cycle m = Z.of_nat c ->
  exists m', levels m (state m) (c + n) = repeat (state m) c ++ levels m' (state m) n /\
    cycle m' = 0 /\ on m' = on m /\ off m' = off m /\ ton m' = ton m /\ toff m' = toff m /\ state m' = state m /\ set m' = set m.
Proof.
  induction c as [|c IH]; intros m n H.
  - exists m. cbn [Nat.add repeat app]. repeat split. exact H.
  - cbn [Nat.add levels]. unfold callback. rewrite Z.gtb_ltb. destruct (Z.ltb_spec 0 (cycle m)); [|lia]. cbn [repeat app].
    set (m1 := Modulator _ _ _ _ _ _ _ _). change (state m) with (state m1).
    destruct (IH m1 n) as (m' & E & R); [unfold m1; cbn; lia|]. exists m'. rewrite E. split; [reflexivity|exact R].
Qed.

(** A boundary at which a new setting is taken. *)
Lemma boundary m d : 0 <= d <= 255 -> cycle m = 0 -> set m = true -> (ton m, toff m) = settings d -> forall n,
  levels m (state m) n =
  if d =? 0 then repeat false n
  else if d =? 255 then repeat true n
  else map (fun i => wave (fst (settings d)) (snd (settings d)) ((if state m then fst (settings d) + 1 else 0) + Z.of_nat i)) (seq 0 n).
Proof.
  intros Hd Hc Hs Ht n. destruct n as [|n]; [destruct (d =? 0), (d =? 255); reflexivity|].
  destruct (Z.eqb_spec d 0) as [D0|D0].
  { subst d. rewrite settings_0 in Ht. injection Ht as T1 T2. cbn [levels repeat]. unfold callback. rewrite Hc, Hs. cbn [Z.gtb Z.compare]. cbn [state off on].
    destruct (state m); rewrite T1, T2; cbn [Z.gtb Z.compare Z.leb]; f_equal; apply levels_still; unfold still; cbn; auto. }
  destruct (Z.eqb_spec d 255) as [D1|D1].
  { subst d. rewrite settings_255 in Ht. injection Ht as T1 T2. cbn [levels repeat]. unfold callback. rewrite Hc, Hs. cbn [Z.gtb Z.compare]. cbn [state off on].
    destruct (state m); rewrite T1, T2; cbn [Z.gtb Z.compare Z.leb]; f_equal; apply levels_still; unfold still; cbn; auto. }
  destruct (settings_divided d ltac:(lia)) as (Ha & Hb & _). rewrite <- Ht in *. cbn [fst snd] in *. clear Ht.
  set (a := ton m) in *. set (b := toff m) in *. cbn [levels seq map]. unfold callback. rewrite Hc, Hs. cbn [Z.gtb Z.compare]. cbn [state off on]. fold a b.
  destruct (state m).
  - rewrite Z.gtb_ltb. destruct (Z.ltb_spec 0 b); [|lia]. cbn [Z.leb Z.compare]. cbn [ton toff running off on set state].
    assert (E : (a + 1) mod (a + b + 2) = a + 1) by (apply Z.mod_small; lia).
    match goal with |- _ :: levels ?M _ _ = _ => assert (P : pos M a b ((a + 1) mod (a + b + 2)));
      [rewrite E; unfold pos; cbn; destruct (Z.leb_spec (a + 1) a); [lia|]; repeat split; try reflexivity; lia|];
      pose proof (levels_wave a b Ha Hb n M (a + 1) P) as L end.
    rewrite E in L. replace (a + 1 <=? a) with false in L by (symmetry; apply Z.leb_gt; lia). rewrite L.
    f_equal; [unfold wave; rewrite Z.add_0_r, E; symmetry; apply Z.leb_gt; lia|].
    rewrite <- seq_shift, map_map. apply map_ext. intros i. f_equal. lia.
  - rewrite Z.gtb_ltb. destruct (Z.ltb_spec 0 a); [|lia]. cbn [Z.leb Z.compare]. cbn [ton toff running off on set state].
    assert (E : 0 mod (a + b + 2) = 0) by (apply Z.mod_small; lia).
    match goal with |- _ :: levels ?M _ _ = _ => assert (P : pos M a b (0 mod (a + b + 2)));
      [rewrite E; unfold pos; cbn; destruct (Z.leb_spec 0 a); [|lia]; repeat split; try reflexivity; lia|];
      pose proof (levels_wave a b Ha Hb n M 0 P) as L end.
    rewrite E in L. replace (0 <=? a) with true in L by (symmetry; apply Z.leb_le; lia). rewrite L.
    f_equal; [unfold wave; cbn [Z.add Z.of_nat]; rewrite E; symmetry; apply Z.leb_le; lia|].
    rewrite <- seq_shift, map_map. apply map_ext. intros i. f_equal. lia.
Qed.

(** Reachable states: the actuator is as the modulator thinks. *)
Definition sane (m : modulator) : Prop := 0 <= cycle m /\ 0 <= on m /\ 0 <= off m /\ 0 <= ton m /\ 0 <= toff m.
Lemma settings_nonneg d : 0 <= d <= 255 -> 0 <= fst (settings d) /\ 0 <= snd (settings d).
Proof.
  intros H. destruct (Z.eq_dec d 0) as [->|]; [cbn; lia|]. destruct (Z.eq_dec d 255) as [->|]; [cbn; lia|].
  destruct (settings_divided d ltac:(lia)) as (A & B & _). lia.
Qed.
Lemma set_sane m d : 0 <= d <= 255 -> sane m -> sane (modulator_set m d).
Proof.
  intros H (A & B & C & D & E). pose proof (settings_nonneg d H) as N. rewrite <- (set_ton m d) in N. cbn [fst snd] in N.
  destruct (set_rest m d) as (R1 & R2 & R3 & _). unfold sane. rewrite R1, R2, R3. lia.
Qed.
Lemma events_sane : forall l m, Forall event_ok l -> sane m ->
  let '(m', level) := events m (state m) l in sane m' /\ level = state m'.
Proof.
  induction l as [|[|d] l IH]; intros m F S; cbn [events].
  - auto.
  - apply Forall_inv_tail in F. destruct (callback m 1) as (m', call) eqn:E.
    assert (Q : sane m' /\ apply_call call (state m) = state m').
    { unfold callback in E. rewrite Z.gtb_ltb in E. destruct S as (A & B & C & D & G). destruct (Z.ltb_spec 0 (cycle m)).
      - injection E as <- <-. unfold sane. cbn. repeat split; lia.
      - destruct (set m); cbn [state on off ton toff cycle set running] in E; destruct (state m) eqn:St;
          rewrite Z.gtb_ltb in E;
          repeat match type of E with context [if ?x <? ?y then _ else _] => destruct (Z.ltb_spec x y) end; cbn [Z.leb Z.compare] in E;
          injection E as <- <-; unfold sane; cbn; repeat split; try lia; try assumption. }
    destruct Q as (Q1 & Q2). unfold apply_call in Q2. rewrite Q2. apply IH; assumption.
  - pose proof (Forall_inv F) as Hd. cbn in Hd. apply Forall_inv_tail in F.
    destruct (set_rest m d) as (_ & _ & _ & R & _). rewrite <- R. apply IH; [exact F|apply set_sane; assumption].
Qed.

(** Counting. *)
Lemma count_app l1 l2 : count (l1 ++ l2) = count l1 + count l2.
Proof. unfold count. induction l1 as [|x l1 IH]; [reflexivity|]. cbn [app fold_right]. rewrite IH. destruct x; lia. Qed.
Lemma count_all v l : Forall (fun x => x = v) l -> count l = if v then Z.of_nat (length l) else 0.
Proof. induction l as [|x l IH]; intros H; [destruct v; reflexivity|]. unfold count in *. cbn [fold_right]. rewrite IH by (eapply Forall_inv_tail, H). rewrite (Forall_inv H). destruct v; cbn [length]; lia. Qed.

Lemma count_wave a b : 0 < a -> 0 < b -> forall k, 
  count (map (fun i => wave a b (Z.of_nat k + Z.of_nat i)) (seq 0 (Z.to_nat (a + b + 2)))) = a + 1.
Proof.
  intros Ha Hb. induction k as [|k IH].
  - replace (Z.to_nat (a + b + 2)) with (Z.to_nat (a + 1) + Z.to_nat (b + 1))%nat by lia. rewrite seq_app, map_app, count_app.
    rewrite (count_all true), (count_all false).
    + rewrite map_length, seq_length. lia.
    + apply Forall_forall. intros x Hx. apply in_map_iff in Hx as (i & <- & Hi). apply in_seq in Hi. unfold wave. rewrite Z.mod_small by lia. apply Z.leb_gt. lia.
    + apply Forall_forall. intros x Hx. apply in_map_iff in Hx as (i & <- & Hi). apply in_seq in Hi. unfold wave. rewrite Z.mod_small by lia. apply Z.leb_le. lia.
  - rewrite <- IH. destruct (Z.to_nat (a + b + 2)) as [|p] eqn:E; [lia|].
    rewrite seq_S at 1. cbn [Nat.add]. rewrite map_app, count_app. cbn [seq map]. 
    replace (count (wave a b (Z.of_nat k + Z.of_nat 0) :: map (fun i => wave a b (Z.of_nat k + Z.of_nat i)) (seq 1 p)))
      with (count [wave a b (Z.of_nat k + Z.of_nat 0)] + count (map (fun i => wave a b (Z.of_nat k + Z.of_nat i)) (seq 1 p)))
      by (rewrite <- count_app; reflexivity).
    rewrite <- seq_shift, map_map.
    assert (E1 : wave a b (Z.of_nat (S k) + Z.of_nat p) = wave a b (Z.of_nat k + Z.of_nat 0)).
    { unfold wave. f_equal. replace (Z.of_nat (S k) + Z.of_nat p) with (Z.of_nat k + Z.of_nat 0 + 1 * (a + b + 2)) by lia. apply Z_mod_plus_full. }
    rewrite E1. rewrite Z.add_comm. f_equal. f_equal. apply map_ext. intros i. f_equal. lia.
Qed.
