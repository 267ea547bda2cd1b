From Coq Require Import ZArith List Bool Lia.
From Verif Require Import CUtil CInt NumberModel NumberSpec NumberProofs DecModel DecProofs MemtoolModel MemtoolSpec.
Import ListNotations.
Local Open Scope Z_scope.

(** Arguments. *)
Lemma spelled_ok s v : spelled s v -> number_unsigned s = (v, []) /\ 0 <= v < 2 ^ 64.
Proof.
  intros (n & N & ->). split; [|destruct (Z.abs n <? 2 ^ 64); [apply Z.mod_pos_bound; reflexivity|lia]].
  pose proof (strtoull_ok s n [] N I) as E. rewrite app_nil_r in E. exact E.
Qed.
Lemma misspelled_ok s : misspelled s -> exists v c r, number_unsigned s = (v, c :: r).
Proof.
  intros (N & H). unfold number_unsigned. destruct (strto_inv s) as [(_ & _ & E)|(a & rest & n & E & _ & Nu & _ & R & _)].
  - destruct s as [|c r]; [contradiction|]. exists 0, c, r. exact E.
  - destruct rest as [|c r]; [rewrite app_nil_r in E; subst a; destruct (H n Nu)|]. exists (fst (strtoull s)), c, r. rewrite <- R. destruct (strtoull s); reflexivity.
Qed.
Lemma arg_ok t s v k : spelled t v -> arg t s k = k (set_value v s).
Proof. intros H. unfold arg. rewrite (proj1 (spelled_ok t v H)). reflexivity. Qed.
Lemma arg_bad t s k : misspelled t -> exists v, arg t s k = Some (set_value v s, true, false).
Proof. intros H. destruct (misspelled_ok t H) as (v & c & r & E). exists v. unfold arg. rewrite E. reflexivity. Qed.

(** Words. *)
Definition alike (f g : Z -> Z) : Prop := forall a, f a = g a.
Lemma pow8_succ w : 2 ^ (8 * Z.of_nat (S w)) = 256 * 2 ^ (8 * Z.of_nat w).
Proof. rewrite Nat2Z.inj_succ. replace (8 * Z.succ (Z.of_nat w)) with (8 + 8 * Z.of_nat w) by lia. rewrite Z.pow_add_r by lia. reflexivity. Qed.
Lemma word_load w : forall m a n, word m a (Z.of_nat w) n -> load w m a = n.
Proof.
  induction w as [|w IH]; intros m a n (R & H); cbn [load]; [cbn in R; lia|].
  rewrite pow8_succ in R. assert (H0 := H 0 ltac:(lia)). rewrite Z.add_0_r in H0. cbn [Z.mul Z.pow] in H0. rewrite Z.div_1_r in H0. rewrite H0.
  rewrite (IH m (a + 1) (n / 256)).
  - pose proof (Z.div_mod n 256). lia.
  - split; [split; [apply Z.div_pos; lia|apply Z.div_lt_upper_bound; lia]|]. intros k K. rewrite Z.div_div by (try apply Z.pow_pos_nonneg; lia). replace (a + 1 + k) with (a + (k + 1)) by lia. rewrite H by lia. f_equal. f_equal. change 256 with (2 ^ 8). rewrite <- Z.pow_add_r by lia. f_equal. lia.
Qed.
Lemma load_word w : forall m a, octet_memory m -> word m a (Z.of_nat w) (load w m a).
Proof.
  intros m a O. revert a. induction w as [|w IH]; intros a; [split; [cbn; lia|intros k K; lia]|]. cbn [load]. destruct (IH (a + 1)) as (R & H). pose proof (O a) as A. split; [rewrite pow8_succ; lia|].
  intros k K. destruct (Z.eq_dec k 0) as [-> |N].
  - rewrite Z.add_0_r. change (2 ^ (8 * 0)) with 1. rewrite Z.div_1_r. replace (m a + 256 * load w m (a + 1)) with (m a + load w m (a + 1) * 256) by lia. rewrite Z.mod_add by lia. rewrite Z.mod_small by exact A. reflexivity.
  - replace (a + k) with (a + 1 + (k - 1)) by lia. rewrite H by lia. f_equal. replace (2 ^ (8 * k)) with (256 * 2 ^ (8 * (k - 1))) by (change 256 with (2 ^ 8); rewrite <- Z.pow_add_r by lia; f_equal; lia).
    rewrite <- Z.div_div by (try apply Z.pow_pos_nonneg; lia). f_equal. replace (m a + 256 * load w m (a + 1)) with (load w m (a + 1) * 256 + m a) by lia. rewrite Z.div_add_l, Z.div_small by lia. lia.
Qed.
Lemma load_alike w : forall m m' a, alike m m' -> load w m a = load w m' a.
Proof. induction w as [|w IH]; intros m m' a H; cbn [load]; [reflexivity|]. rewrite (H a), (IH m m' (a + 1) H). reflexivity. Qed.
Lemma store_at w : forall m a n b, store w m a n b = if (a <=? b) && (b <? a + Z.of_nat w) then (n / 2 ^ (8 * (b - a))) mod 256 else m b.
Proof.
  induction w as [|w IH]; intros m a n b; cbn [store].
  - destruct (Z.leb_spec a b), (Z.ltb_spec b (a + Z.of_nat 0)); try reflexivity. lia.
  - rewrite IH. unfold upd. destruct (Z.eqb_spec b a) as [-> |N].
    + destruct (Z.leb_spec (a + 1) a); [lia|]. cbn [andb]. destruct (Z.leb_spec a a); [|lia]. destruct (Z.ltb_spec a (a + Z.of_nat (S w))); [|lia]. cbn [andb]. rewrite Z.sub_diag. cbn [Z.mul Z.pow]. rewrite Z.div_1_r. reflexivity.
    + destruct (Z.leb_spec (a + 1) b), (Z.ltb_spec b (a + 1 + Z.of_nat w)), (Z.leb_spec a b), (Z.ltb_spec b (a + Z.of_nat (S w))); cbn [andb]; try lia; try reflexivity.
      rewrite Z.div_div by (try apply Z.pow_pos_nonneg; lia). f_equal. f_equal. change 256 with (2 ^ 8). rewrite <- Z.pow_add_r by lia. f_equal. lia.
Qed.
Lemma store_becomes w m a n m1 : becomes m a (Z.of_nat w) n m1 -> alike (store w m a n) m1.
Proof.
  intros ((_ & H) & K) b. rewrite store_at. destruct (Z.leb_spec a b), (Z.ltb_spec b (a + Z.of_nat w)); cbn [andb]; try (rewrite K; [reflexivity|lia]).
  specialize (H (b - a) ltac:(lia)). replace (a + (b - a)) with b in H by lia. symmetry. exact H.
Qed.
Lemma store_alike w m m' a n : alike m m' -> alike (store w m a n) (store w m' a n).
Proof. intros H b. rewrite !store_at, (H b). reflexivity. Qed.
Lemma becomes_octets m a w n m1 : octet_memory m -> becomes m a w n m1 -> octet_memory m1.
Proof.
  intros O ((_ & H) & K) b. destruct (Z.le_decidable a b) as [A|A]; [|rewrite K by lia; apply O]. destruct (Z.lt_decidable b (a + w)) as [B|B]; [|rewrite K by lia; apply O].
  specialize (H (b - a) ltac:(lia)). replace (a + (b - a)) with b in H by lia. rewrite H. apply Z.mod_pos_bound. reflexivity.
Qed.
Lemma bits_eq k x y : 0 <= k -> 0 <= x < 2 ^ k -> 0 <= y < 2 ^ k -> (forall i, 0 <= i < k -> Z.testbit x i = Z.testbit y i) -> x = y.
Proof.
  intros K X Y H. apply Z.bits_inj'. intros i Hi. destruct (Z.ltb_spec i k); [apply H; lia|]. rewrite <- (Z.mod_small x (2 ^ k)), <- (Z.mod_small y (2 ^ k)) by assumption. rewrite !Z.mod_pow2_bits_high by lia. reflexivity.
Qed.

(** The states. *)
Record stands (region : option (Z * Z)) (c : setting) (r : option Z) (m : Z -> Z) (s : st) : Prop := {
  i_mask : mask s = under c; i_place : offset s = place c /\ 0 <= place c; i_width : size s = width c;
  i_mem : alike (mem s) m; i_octets : octet_memory m; i_read : match r with Some n => value s = n | None => True end;
  i_region : match region with
    | Some (start, len) => address s = start /\ extent s = len /\ len <> 0 /\ (base s = None \/ base s = Some (start, len))
    | None => extent s = 0 /\ base s = None end }.
Lemma stands_value region c r m s v : stands region c r m s -> stands region c None m (set_value v s).
Proof. intros []. split; cbn; auto. Qed.

Definition final (region : option (Z * Z)) (s : st) : st := match region with Some _ => s | None => set_base None s end.
Lemma operate_at map region c r m s a o m0 : stands region c r m s -> located map region c a -> exists b, (b = None -> False) /\
  (forall start len, region = Some (start, len) -> b = Some (start, len)) /\
  forall s1, operate_type (width c) a o m0 (set_base b s) = Some s1 -> extent s1 = extent s -> operate map o m0 s = Some (final region s1, false).
Proof.
  intros [] (W & AL & L). destruct i_place0 as (P & P0). assert (WP : 1 <= width c) by (cbn in W; lia).
  assert (WB : (width c =? 1) || (width c =? 2) || (width c =? 4) || (width c =? 8) = true) by (cbn in W; decompose [or] W; try contradiction; match goal with H : _ = width c |- _ => rewrite <- H end; reflexivity).
  assert (AB : (a mod width c =? 0) = true) by (apply Z.eqb_eq; exact AL).
  destruct region as [[start len]|].
  - destruct L as (M & -> & Fit). destruct i_region0 as (A & E & N & B). exists (Some (start, len)). split; [discriminate|]. split; [intros ? ? X; injection X as <- <-; reflexivity|].
    intros s1 H X. unfold operate. rewrite A, E. destruct (Z.eqb_spec len 0); [contradiction|]. rewrite M.
    assert (BB : match base s with Some b => Some b | None => Some (start, len) end = Some (start, len)) by (destruct B as [-> | ->]; reflexivity). rewrite BB.
    cbn [extent offset size set_base]. rewrite E, i_width0, P, WB. destruct (Z.eqb_spec len 0); [contradiction|]. rewrite AB.
    destruct (Z.leb_spec start (start + place c)); [|lia]. destruct (Z.leb_spec (start + place c + width c) (start + len)); [|lia]. cbn [andb]. rewrite H. cbn [bind]. rewrite X, E. destruct (Z.eqb_spec len 0); [contradiction|]. reflexivity.
  - destruct L as (M & ->). destruct i_region0 as (E & B). exists (Some (place c, width c)). split; [discriminate|]. split; [discriminate|]. intros s1 H X. unfold operate. rewrite B, E, P, i_width0, M. cbn [Z.eqb extent offset size set_base]. rewrite E, i_width0, WB. cbn [Z.eqb]. rewrite AB.
    destruct (Z.leb_spec (place c) (place c)); [|lia]. destruct (Z.leb_spec (place c + width c) (place c + width c)); [|lia]. cbn [andb]. rewrite H. cbn [bind]. rewrite X, E. reflexivity.
Qed.
Lemma operate_unmapped map c r m s o m0 : stands None c r m s -> map (place c) (width c) = false -> operate map o m0 s = Some (s, true).
Proof. intros [] M. destruct i_region0 as (E & B), i_place0 as (P & _). unfold operate. rewrite B, E, P, i_width0, M. reflexivity. Qed.

Definition op_of (k : change) : op := match k with ToValue _ => Opw | SetOnes _ => Ops | SetOne _ => OpS | ClearOnes _ => Opc | ClearOne _ => OpC end.
Definition val_of (k : change) : Z := match k with ToValue v => v | SetOnes v => v | SetOne v => v | ClearOnes v => v | ClearOne v => v end.
Definition mask_of (k : change) (m : Z) : Z := match k with SetOnes _ => m | SetOne _ => m | _ => 0 end.
Lemma asks_apply map fq w f k s : asks w f k -> apply map fq f s = (let* r := operate map (op_of k) (mask_of k (mask s)) (set_value (val_of k) s) in Some (fst r, snd r, false)).
Proof. destruct f, k; cbn [asks]; intros H; try contradiction; cbn [apply op_of mask_of val_of]; match type of H with _ /\ _ => destruct H as (H & _) | _ => idtac end; rewrite (arg_ok _ s _ _ H); reflexivity. Qed.
Lemma asks_range w f k : asks w f k -> 0 <= val_of k < 2 ^ 64.
Proof. destruct f, k; cbn [asks]; intros H; try contradiction; cbn [val_of]; match type of H with _ /\ _ => destruct H as (H & _) | _ => idtac end; apply (spelled_ok _ _ H). Qed.
Lemma asks_shift w f k : In w [1; 2; 4; 8] -> asks w f k -> match k with SetOne n | ClearOne n => n < 8 * w /\ (n >? shift_max w) = false | _ => True end.
Proof.
  intros W H. assert (G : forall n, n < 8 * w -> (n >? shift_max w) = false) by (intros n L; unfold shift_max; destruct (Z.gtb_spec n (if w <=? 2 then 30 else 8 * w - 1)); [|reflexivity]; destruct (Z.leb_spec w 2); lia).
  destruct f, k; cbn [asks] in H; try contradiction; try exact I; destruct H as (_ & H); split; auto.
Qed.
Lemma change_at w a f k s n old : In w [1; 2; 4; 8] -> asks w f k -> value s = val_of k -> load (Z.to_nat w) (mem s) a = old ->
  0 <= n < 2 ^ (8 * w) -> (forall i, 0 <= i < 8 * w -> Z.testbit n i = new_bit k (mask s) old i) ->
  exists v, operate_type w a (op_of k) (mask_of k (mask s)) s = Some (set_value v (set_mem (store (Z.to_nat w) (mem s) a n) (accesses k a w n) s)).
Proof.
  intros W A V L N H. assert (WP : 1 <= w) by (cbn in W; lia). pose proof (asks_shift w f k W A) as Sh. pose proof (asks_range w f k A) as R.
  assert (T : forall x, (forall i, 0 <= i < 8 * w -> Z.testbit x i = new_bit k (mask s) old i) -> x mod 2 ^ (8 * w) = n).
  { intros x Hx. apply (bits_eq (8 * w)); [lia|apply Z.mod_pos_bound; apply Z.pow_pos_nonneg; lia|exact N|]. intros i Hi. rewrite Z.mod_pow2_bits_low by lia. rewrite Hx, H by exact Hi. reflexivity. }
  assert (D : forall i, 0 <= i < 8 * w -> Z.testbit (Z.shiftl 1 (value s) mod 2 ^ (8 * w)) i = (i =? val_of k)).
  { intros i Hi. rewrite Z.mod_pow2_bits_low by lia. rewrite Z.shiftl_1_l, V, Z.pow2_bits_eqb by lia. apply Z.eqb_sym. }
  unfold operate_type. rewrite L. destruct k as [v|v|v|v|v]; cbn [op_of mask_of val_of accesses new_bit] in *.
  - rewrite V. rewrite (T v) by reflexivity. eexists. reflexivity.
  - rewrite V. eexists. erewrite (T (Z.lor _ _)); [reflexivity|]. intros i Hi. rewrite Z.lor_spec, Z.land_spec, Z.lnot_spec, !Z.mod_pow2_bits_low by lia. apply orb_comm.
  - rewrite V in *. rewrite (proj2 Sh). eexists. erewrite (T (Z.lor _ _)); [reflexivity|]. intros i Hi. rewrite Z.lor_spec, Z.land_spec, Z.lnot_spec, D, Z.mod_pow2_bits_low by lia. apply orb_comm.
  - rewrite V. eexists. erewrite (T (Z.land _ _)); [reflexivity|]. intros i Hi. rewrite Z.land_spec, Z.lnot_spec, Z.mod_pow2_bits_low by lia. reflexivity.
  - rewrite V in *. rewrite (proj2 Sh). eexists. erewrite (T (Z.land _ _)); [reflexivity|]. intros i Hi. rewrite Z.land_spec, Z.lnot_spec, D by lia. apply andb_comm.
Qed.

Lemma session_run map fq region c r m l m' o b x : session map region c r m l m' o b x -> forall s, stands region c r m s ->
  exists s', options map fq l s = Some (s', x) /\ alike (mem s') m' /\ out s' = out s ++ o /\ bus s' = bus s ++ b.
Proof.
  induction 1 as [c r m|c r m w t v l m' o b x W Sp S IH|c r m t v l m' o b x Sp S IH|c r m a n l m' o b x Lo Wo S IH|c r m a f k old n m1 l m' o b x Lo As Wo Bi Be S IH|c n m l m' o b x N S IH|c m l|c m l m' o b x S IH|c n m l N|c r m f l m' o b x F S IH|c r m t v l m' o b x Sp S IH|c r m f t l Mi F|c r m f l Rg Mp Q]; intros s St; cbn [options].
  - exists s. rewrite !app_nil_r. repeat split. apply (i_mem _ _ _ _ _ St).
  - cbn [apply]. rewrite (arg_ok t s v _ Sp). cbn [bind]. destruct (IH (set_place w v (set_value v s))) as (s' & E & Q); [destruct St; split; cbn; auto; split; [reflexivity|apply (spelled_ok _ _ Sp)]|]. exists s'. split; [exact E|exact Q].
  - cbn [apply]. rewrite (arg_ok t s v _ Sp). cbn [bind]. destruct (IH (set_mask v (set_value v s))) as (s' & E & Q); [destruct St; split; cbn; auto|]. exists s'. split; [exact E|exact Q].
  - cbn [apply]. pose proof (proj1 Lo) as W. assert (WP : 1 <= width c) by (cbn in W; lia).
    destruct (operate_at map region c r m s a Opr 0 St Lo) as (b0 & Nb & Rb & E).
    assert (Ld : load (Z.to_nat (width c)) (mem s) a = n). { rewrite (load_alike _ _ m a (i_mem _ _ _ _ _ St)). apply word_load. rewrite Z2Nat.id by lia. exact Wo. }
    assert (Rn : 0 <= n < 2 ^ 64) by (destruct Wo as (Rn & _); cbn in W; decompose [or] W; try contradiction; match goal with H : _ = width c |- _ => rewrite <- H in Rn end; cbn in Rn; lia).
    erewrite E; [|unfold operate_type; reflexivity|reflexivity]. cbn [bind fst snd].
    destruct (IH (final region (set_value (load (Z.to_nat (width c)) (mem (set_base b0 s)) a) (add_out (number 10 (load (Z.to_nat (width c)) (mem (set_base b0 s)) a) ++ [10]) (set_mem (mem (set_base b0 s)) [Load a (width c)] (set_base b0 s)))))) as (s' & E2 & M & O & B).
    { destruct St. split; destruct region as [[start len]|]; cbn; auto; [specialize (Rb start len eq_refl); intuition|intuition]. }
    exists s'. split; [exact E2|]. split; [exact M|].
    assert (FO : forall q, out (final region q) = out q /\ bus (final region q) = bus q) by (intros q; destruct region; split; reflexivity).
    rewrite O, B, !(proj1 (FO _)), !(proj2 (FO _)). cbn [out bus set_value add_out set_mem set_base mem]. rewrite Ld, (number_dec n Rn). rewrite <- !app_assoc. split; reflexivity.
  - rewrite (asks_apply map fq _ f k s As). pose proof (proj1 Lo) as W. assert (WP : 1 <= width c) by (cbn in W; lia).
    pose proof (stands_value region c r m s (val_of k) St) as St2.
    destruct (operate_at map region c None m _ a (op_of k) (mask_of k (mask s)) St2 Lo) as (b0 & Nb & Rb & E).
    assert (Ld : load (Z.to_nat (width c)) (mem s) a = old). { rewrite (load_alike _ _ m a (i_mem _ _ _ _ _ St)). apply word_load. rewrite Z2Nat.id by lia. exact Wo. }
    destruct (change_at (width c) a f k (set_base b0 (set_value (val_of k) s)) n old W As eq_refl Ld (proj1 (proj1 Be))) as (v & Ov).
    { cbn. rewrite (i_mask _ _ _ _ _ St). exact Bi. }
    cbn [mask set_base set_value] in Ov. rewrite (E _ Ov eq_refl). cbn [bind fst snd].
    destruct (IH (final region (set_value v (set_mem (store (Z.to_nat (width c)) (mem (set_base b0 (set_value (val_of k) s))) a n) (accesses k a (width c) n) (set_base b0 (set_value (val_of k) s)))))) as (s' & E2 & M & O & B).
    { destruct St. assert (Al : alike (store (Z.to_nat (width c)) (mem s) a n) m1).
      { intros q. rewrite (store_alike _ _ m a n i_mem0 q). apply store_becomes. rewrite Z2Nat.id by lia. exact Be. }
      pose proof (becomes_octets m a (width c) n m1 i_octets0 Be) as Oc.
      split; destruct region as [[start len]|]; cbn; auto; [specialize (Rb start len eq_refl); intuition|intuition]. }
    exists s'. split; [exact E2|]. split; [exact M|].
    assert (FO : forall q, out (final region q) = out q /\ bus (final region q) = bus q) by (intros q; destruct region; split; reflexivity).
    rewrite O, B, !(proj1 (FO _)), !(proj2 (FO _)). cbn. rewrite <- !app_assoc. split; reflexivity.
  - cbn [apply bind]. pose proof (i_read _ _ _ _ _ St) as V. cbn in V. rewrite V. destruct (Z.eqb_spec n 0); [contradiction|]. exact (IH s St).
  - cbn [apply bind]. pose proof (i_read _ _ _ _ _ St) as V. cbn in V. rewrite V. cbn [Z.eqb]. exists s. rewrite !app_nil_r. repeat split. apply (i_mem _ _ _ _ _ St).
  - cbn [apply bind]. pose proof (i_read _ _ _ _ _ St) as V. cbn in V. rewrite V. cbn [Z.eqb negb]. exact (IH s St).
  - cbn [apply bind]. pose proof (i_read _ _ _ _ _ St) as V. cbn in V. rewrite V. destruct (Z.eqb_spec n 0); [contradiction|]. cbn [negb]. exists s. rewrite !app_nil_r. repeat split. apply (i_mem _ _ _ _ _ St).
  - cbn in F. destruct F as [<- |[<- |[<- |[]]]]; cbn [apply bind]; exact (IH s St).
  - cbn [apply]. rewrite (arg_ok t s v _ Sp). cbn [bind]. destruct (IH (set_value (u64 (v * fq) / 1000000) (set_value v s))) as (s' & E & Q); [eapply stands_value; eapply stands_value; exact St|]. exists s'. split; [exact E|exact Q].
  - assert (E : exists v, apply map fq f s = Some (set_value v s, true, false)).
    { cbn [In] in F. decompose [or] F; try contradiction; subst f; cbn [apply]; apply (arg_bad t s _ Mi). }
    destruct E as (v & ->). cbn [bind]. exists (set_value v s). split; [reflexivity|]. cbn. rewrite !app_nil_r. repeat split. apply (i_mem _ _ _ _ _ St).
  - subst region. destruct Q as [-> |(k & As)].
    + cbn [apply]. rewrite (operate_unmapped map c r m s Opr 0 St Mp). cbn [bind fst snd]. exists s. rewrite !app_nil_r. repeat split. apply (i_mem _ _ _ _ _ St).
    + rewrite (asks_apply map fq _ f k s As). rewrite (operate_unmapped map c None m (set_value (val_of k) s) _ _ (stands_value None c r m s _ St) Mp). cbn [bind fst snd]. exists (set_value (val_of k) s). cbn. rewrite !app_nil_r. repeat split. apply (i_mem _ _ _ _ _ St).
Qed.

(** There is always something that happens. *)
Lemma bits_exist f k : exists n, 0 <= n < 2 ^ Z.of_nat k /\ forall i, 0 <= i < Z.of_nat k -> Z.testbit n i = f i.
Proof.
  induction k as [|k (n & R & H)]; [exists 0; split; [cbn; lia|intros i Hi; lia]|].
  exists (n + Z.b2z (f (Z.of_nat k)) * 2 ^ Z.of_nat k). rewrite Nat2Z.inj_succ, Z.pow_succ_r by lia. split; [destruct (f (Z.of_nat k)); cbn [Z.b2z]; lia|].
  assert (P : 0 < 2 ^ Z.of_nat k) by (apply Z.pow_pos_nonneg; lia).
  intros i Hi. destruct (Z.eq_dec i (Z.of_nat k)) as [-> |N].
  - assert (E : n + Z.b2z (f (Z.of_nat k)) * 2 ^ Z.of_nat k = Z.lor (Z.shiftl (Z.b2z (f (Z.of_nat k))) (Z.of_nat k)) n) by (rewrite Z.shiftl_mul_pow2, ChecksumProofs.lor_disjoint by lia; lia).
    rewrite E, Z.lor_spec, Z.shiftl_spec, Z.sub_diag by lia. rewrite <- (Z.mod_small n (2 ^ Z.of_nat k)) by exact R. rewrite Z.mod_pow2_bits_high by lia. rewrite orb_false_r. destruct (f (Z.of_nat k)); reflexivity.
  - rewrite <- (H i) by lia. rewrite <- (Z.mod_pow2_bits_low (n + _) (Z.of_nat k) i) by lia. rewrite Z.mod_add by lia. rewrite Z.mod_small by exact R. reflexivity.
Qed.
Lemma plan_session map region c q l : plan map region c q l -> forall m, octet_memory m -> forall r, (q = true -> r <> None) -> exists m' o b, session map region c r m l m' o b 0.
Proof.
  induction 1 as [c q|c q w s v l W Sp P IH|c q s v l Sp P IH|c q a l Lo P IH|c q a f k l Lo As P IH|c f l F P IH|c q f l F P IH|c q s v l Sp P IH]; intros m O r R.
  - exists m, [], []. constructor.
  - destruct (IH m O None) as (m' & o & b & S); [discriminate|]. exists m', o, b. eapply session_width; eassumption.
  - destruct (IH m O None) as (m' & o & b & S); [discriminate|]. exists m', o, b. eapply session_mask; eassumption.
  - assert (WP : 0 <= width c) by (destruct Lo as (W & _); cbn in W; lia).
    pose proof (load_word (Z.to_nat (width c)) m a O) as Wo. rewrite Z2Nat.id in Wo by exact WP.
    destruct (IH m O (Some (load (Z.to_nat (width c)) m a))) as (m' & o & b & S); [discriminate|]. do 3 eexists. eapply session_read; eassumption.
  - assert (WP : 0 <= width c) by (destruct Lo as (W & _); cbn in W; lia).
    pose proof (load_word (Z.to_nat (width c)) m a O) as Wo. rewrite Z2Nat.id in Wo by exact WP.
    destruct (bits_exist (new_bit k (under c) (load (Z.to_nat (width c)) m a)) (Z.to_nat (8 * width c))) as (n & Rn & Hn). rewrite Z2Nat.id in Rn, Hn by lia.
    assert (Be : becomes m a (width c) n (store (Z.to_nat (width c)) m a n)).
    { split; [split; [exact Rn|]|].
      - intros j Hj. rewrite store_at. rewrite Z2Nat.id by exact WP. destruct (Z.leb_spec a (a + j)); [|lia]. destruct (Z.ltb_spec (a + j) (a + width c)); [|lia]. cbn [andb]. f_equal. f_equal. f_equal. lia.
      - intros j Hj. rewrite store_at. rewrite Z2Nat.id by exact WP. destruct (Z.leb_spec a j), (Z.ltb_spec j (a + width c)); try reflexivity. lia. }
    destruct (IH _ (becomes_octets _ _ _ _ _ O Be) None) as (m' & o & b & S); [discriminate|]. do 3 eexists. eapply session_change; eassumption.
  - destruct r as [n|]; [|destruct (R eq_refl eq_refl)]. destruct (IH m O (Some n)) as (m' & o & b & S); [discriminate|]. cbn in F. destruct F as [<- |[<- |[]]]; destruct (Z.eq_dec n 0) as [-> |N].
    + do 3 eexists. apply session_true_not.
    + do 3 eexists. apply session_true; eassumption.
    + do 3 eexists. apply session_false; eassumption.
    + do 3 eexists. apply session_false_not; eassumption.
  - destruct (IH m O r R) as (m' & o & b & S). exists m', o, b. apply session_nothing; assumption.
  - destruct (IH m O None) as (m' & o & b & S); [discriminate|]. exists m', o, b. eapply session_sleep; eassumption.
Qed.
Lemma session_within map region start len c r m l m' o b x : session map region c r m l m' o b x -> region = Some (start, len) -> 0 <= place c ->
  Forall (within start len) b /\ forall a, ~ start <= a < start + len -> m' a = m a.
Proof.
  induction 1 as [c r m|c r m w t v l m' o b x W Sp S IH|c r m t v l m' o b x Sp S IH|c r m a n l m' o b x Lo Wo S IH|c r m a f k old n m1 l m' o b x Lo As Wo Bi Be S IH|c n m l m' o b x N S IH|c m l|c m l m' o b x S IH|c n m l N|c r m f l m' o b x F S IH|c r m t v l m' o b x Sp S IH|c r m f t l Mi F|c r m f l Rg Mp Q]; intros Rg0 P; try (split; [constructor|reflexivity]); try (apply IH; assumption).
  - apply IH; [exact Rg0|apply (spelled_ok _ _ Sp)].
  - destruct (IH Rg0 P) as (A & B). split; [|exact B]. constructor; [|exact A]. destruct Lo as (_ & _ & L). rewrite Rg0 in L. cbn. lia.
  - destruct (IH Rg0 P) as (A & B). destruct Lo as (_ & _ & L). rewrite Rg0 in L. destruct L as (_ & -> & L). split.
    + apply Forall_app. split; [|exact A]. destruct k; cbn; repeat constructor; lia.
    + intros q Hq. rewrite B by exact Hq. apply (proj2 Be). lia.
Qed.
