From Coq Require Import ZArith List Bool Lia Arith.
From Verif Require Import CInt CUtil EscapeModel EscapeSpec.
Import ListNotations.
Local Open Scope Z_scope.

Lemma hex_digit_cases c :
  match hex_digit c with Some d => hexval c d | None => ~ hexadecimal c end.
Proof.
  unfold hexadecimal, hexval, hex_digit.
  destruct ((48 <=? c) && (c <=? 57)) eqn:A; [apply andb_true_iff in A; rewrite !Z.leb_le in A; lia|].
  destruct ((97 <=? c) && (c <=? 102)) eqn:B; [apply andb_true_iff in B; rewrite !Z.leb_le in B; lia|].
  destruct ((65 <=? c) && (c <=? 70)) eqn:C; [apply andb_true_iff in C; rewrite !Z.leb_le in C; lia|].
  rewrite andb_false_iff, !Z.leb_gt in A, B, C. intros (d & D). lia.
Qed.
Lemma hexval_det c d e : hexval c d -> hexval c e -> d = e.
Proof. unfold hexval. lia. Qed.
Lemma hex_digit_some c d : hexval c d -> hex_digit c = Some d.
Proof.
  intros H. pose proof (hex_digit_cases c) as Q. destruct (hex_digit c) as [e|].
  - f_equal. exact (hexval_det _ _ _ Q H).
  - exfalso. apply Q. exists d. exact H.
Qed.
Lemma hex_digit_none c : hex_digit c = None <-> ~ hexadecimal c.
Proof.
  pose proof (hex_digit_cases c) as Q. destruct (hex_digit c) as [e|]; [|tauto].
  split; [discriminate|]. intros H. exfalso. apply H. exists e. exact Q.
Qed.
Lemma hexval_dec c : (exists d, hexval c d) \/ ~ hexadecimal c.
Proof. pose proof (hex_digit_cases c) as Q. destruct (hex_digit c) as [e|]; [left; exists e; exact Q|right; exact Q]. Qed.
Lemma hexval_range c d : hexval c d -> 0 <= d < 16 /\ c <> 0.
Proof. unfold hexval. lia. Qed.
Lemma is_octal_spec c : is_octal c = true <-> octal c.
Proof. unfold is_octal, octal. rewrite andb_true_iff, !Z.leb_le. lia. Qed.
Lemma is_octal_false c : is_octal c = false <-> ~ octal c.
Proof. rewrite <- is_octal_spec. destruct (is_octal c); split; intros H; try discriminate; try reflexivity; exfalso; auto. Qed.

Lemma letter_some c x : In (c, x) letters -> letter c = Some x /\ c <> 0 /\ c <> 10 /\ c <> 13 /\ c <> 120 /\ ~ octal c.
Proof.
  unfold octal. intros H. repeat (destruct H as [H|H]; [injection H as <- <-; repeat split; try reflexivity; lia|]). destruct H.
Qed.
Lemma letter_none c : (forall x, ~ In (c, x) letters) -> letter c = None.
Proof.
  intros H. unfold letter.
  repeat match goal with |- (if ?c =? ?n then Some ?v else _) = None =>
    destruct (Z.eqb_spec c n) as [->|?]; [exfalso; apply (H v); cbn; tauto|] end. reflexivity.
Qed.
Lemma letter_dec c : (exists x, In (c, x) letters) \/ (forall x, ~ In (c, x) letters).
Proof.
  destruct (letter c) as [x|] eqn:E.
  - left. exists x. revert E. unfold letter, BACKSLASH.
    repeat match goal with |- (if ?c =? ?n then Some ?v else _) = Some x -> _ =>
      destruct (Z.eqb_spec c n) as [->|?]; [intros [= <-]; cbn; tauto|] end. discriminate.
  - right. intros x H. apply letter_some in H. destruct H as (H & _). congruence.
Qed.

Lemma lor_hex d e : 0 <= d < 16 -> 0 <= e < 16 -> u8 (Z.lor (Z.shiftl (u8 (Z.lor (Z.shiftl 0 4) d)) 4) e) = 16 * d + e.
Proof.
  intros Hd He. apply Z.eqb_eq.
  exact (all_below2 16 16 (fun d e => u8 (Z.lor (Z.shiftl (u8 (Z.lor (Z.shiftl 0 4) d)) 4) e) =? 16 * d + e) eq_refl d e Hd He).
Qed.
Lemma lor_hex1 d : 0 <= d < 16 -> u8 (Z.lor (Z.shiftl 0 4) d) = d.
Proof. intros Hd. apply Z.eqb_eq. exact (all_below 16 (fun d => u8 (Z.lor (Z.shiftl 0 4) d) =? d) eq_refl d Hd). Qed.
Lemma lor_oct v d : 0 <= v < 256 -> 0 <= d < 8 -> u8 (Z.lor (Z.shiftl v 3) d) = (8 * v + d) mod 256.
Proof.
  intros Hd He. apply Z.eqb_eq.
  exact (all_below2 256 8 (fun v d => u8 (Z.lor (Z.shiftl v 3) d) =? (8 * v + d) mod 256) eq_refl v d Hd He).
Qed.

Lemma hd_not_hex t r : not_next hexadecimal t -> exists c rest, t ++ 0 :: r = c :: rest /\ hex_digit c = None.
Proof.
  destruct t as [|c t]; cbn.
  - intros _. exists 0, r. split; reflexivity.
  - intros H. exists c, (t ++ 0 :: r). split; [reflexivity|]. apply hex_digit_none, H.
Qed.
Lemma hd_not_octal t r : not_next octal t -> exists c rest, t ++ 0 :: r = c :: rest /\ is_octal c = false.
Proof.
  destruct t as [|c t]; cbn.
  - intros _. exists 0, r. split; reflexivity.
  - intros H. exists c, (t ++ 0 :: r). split; [reflexivity|]. apply is_octal_false, H.
Qed.

Lemma octal_loop_spec : forall ds n v t r, Forall octal ds -> (length ds <= n)%nat ->
  (length ds = n \/ not_next octal t) -> 0 <= v ->
  octal_loop n (ds ++ t ++ 0 :: r) (v mod 256) =
  Some (t ++ 0 :: r, fold_left (fun v c => 8 * v + (c - 48)) ds v mod 256).
Proof.
  induction ds as [|d ds IH]; intros n v t r F L E Hv.
  - cbn [app fold_left]. destruct n as [|n]; [reflexivity|]. destruct E as [E|E]; [discriminate|].
    destruct (hd_not_octal t r E) as (c & rest & -> & O). cbn [octal_loop]. rewrite O. reflexivity.
  - destruct n as [|n]; [cbn in L; lia|]. cbn [app octal_loop fold_left].
    apply Forall_cons_iff in F. destruct F as [Fd F]. rewrite (proj2 (is_octal_spec d) Fd).
    red in Fd. rewrite lor_oct; [|apply Z.mod_pos_bound; lia|lia].
    rewrite <- (IH n (8 * v + (d - 48)) t r); [f_equal|exact F|cbn in L; lia|cbn in E; destruct E; [left; lia|right; assumption]|lia].
    rewrite <- Zplus_mod_idemp_l, Zmult_mod_idemp_r, Zplus_mod_idemp_l. reflexivity.
Qed.

(** The model does what one element of the text means. *)
Lemma step_model s s' out r : text s -> step s s' out ->
  exists c t, s = c :: t /\ c <> 0 /\ collapse_step c (t ++ 0 :: r) = Some (s' ++ 0 :: r, out) /\
    text s' /\ (length s' < length s)%nat /\ (length out <= 1)%nat.
Proof.
  intros Ht S. assert (N : forall c t, s = c :: t -> c <> 0) by (intros c t -> ->; apply Ht; left; reflexivity).
  destruct S as [c t Hc| |c t Hc|c x t Hc|h l d e t Hh Hl|h d t Hh Hn|t Hn|ds t F L E|c t N1 N2 N3 N4 N5];
    (eexists; eexists; split; [reflexivity|]; split; [eapply N; reflexivity|]).
  - unfold collapse_step, BACKSLASH. destruct (Z.eqb_spec c 92); [contradiction|]. split; [reflexivity|].
    split; [intros H; apply Ht; right; exact H|]. cbn. lia.
  - split; [reflexivity|]. split; [intros []|]. cbn. lia.
  - split; [destruct Hc as [->| ->]; reflexivity|]. split; [intros H; apply Ht; right; right; exact H|]. cbn. lia.
  - destruct (letter_some c x Hc) as (E & H0 & H1 & H2 & _). unfold collapse_step. cbn [app Z.eqb BACKSLASH Pos.eqb].
    destruct (Z.eqb_spec c 0); [contradiction|]. destruct (Z.eqb_spec c 10); [contradiction|]. destruct (Z.eqb_spec c 13); [contradiction|].
    cbn [orb]. rewrite E. split; [reflexivity|]. split; [intros H; apply Ht; right; right; exact H|]. cbn. lia.
  - unfold collapse_step. cbn [app]. change (92 =? BACKSLASH) with true. change (120 =? 0) with false. change ((120 =? 10) || (120 =? 13)) with false.
    change (letter 120) with (@None Z). change (120 =? 120) with true. cbv iota. cbn [hex_loop].
    rewrite (hex_digit_some _ _ Hh), (hex_digit_some _ _ Hl). pose proof (hexval_range _ _ Hh). pose proof (hexval_range _ _ Hl).
    rewrite lor_hex by tauto. split; [reflexivity|]. split; [intros Q; apply Ht; do 4 right; exact Q|]. cbn. lia.
  - unfold collapse_step. cbn [app]. change (92 =? BACKSLASH) with true. change (120 =? 0) with false. change ((120 =? 10) || (120 =? 13)) with false.
    change (letter 120) with (@None Z). change (120 =? 120) with true. cbv iota. cbn [hex_loop].
    rewrite (hex_digit_some _ _ Hh). pose proof (hexval_range _ _ Hh).
    destruct (hd_not_hex t r Hn) as (c & rest & E & O). rewrite E, O. rewrite lor_hex1 by tauto.
    split; [reflexivity|]. split; [intros Q; apply Ht; do 3 right; exact Q|]. cbn. lia.
  - unfold collapse_step. cbn [app]. change (92 =? BACKSLASH) with true. change (120 =? 0) with false. change ((120 =? 10) || (120 =? 13)) with false.
    change (letter 120) with (@None Z). change (120 =? 120) with true. cbv iota.
    destruct (hd_not_hex t r Hn) as (c & rest & E & O). rewrite E. cbn [hex_loop]. rewrite O.
    split; [reflexivity|]. split; [intros Q; apply Ht; right; exact Q|]. cbn. lia.
  - destruct ds as [|d ds]; [cbn in L; lia|].
    assert (Od : octal d) by (apply Forall_cons_iff in F; tauto).
    unfold collapse_step. rewrite <- app_assoc. change (92 =? BACKSLASH) with true. cbn [app].
    pose proof Od as Od'. red in Od'. destruct (Z.eqb_spec d 0); [lia|]. destruct (Z.eqb_spec d 10); [lia|]. destruct (Z.eqb_spec d 13); [lia|].
    cbn [orb]. rewrite letter_none by (intros x Q; apply letter_some in Q; tauto).
    destruct (Z.eqb_spec d 120); [lia|]. rewrite (proj2 (is_octal_spec d) Od).
    change (octal_loop 3 (d :: ds ++ t ++ 0 :: r) 0) with (octal_loop 3 ((d :: ds) ++ t ++ 0 :: r) (0 mod 256)).
    rewrite octal_loop_spec; [|exact F|lia|exact E|lia].
    split; [reflexivity|]. split; [intros Q; apply Ht; do 2 right; apply in_or_app; right; exact Q|]. cbn. rewrite app_length. lia.
  - unfold collapse_step. cbn [app]. change (92 =? BACKSLASH) with true. cbv iota.
    assert (c <> 0) by (intros ->; apply Ht; right; left; reflexivity).
    destruct (Z.eqb_spec c 0); [contradiction|]. destruct (Z.eqb_spec c 10); [contradiction|]. destruct (Z.eqb_spec c 13); [contradiction|].
    cbn [orb]. rewrite letter_none by exact N5. destruct (Z.eqb_spec c 120); [contradiction|]. rewrite (proj2 (is_octal_false c) N4).
    split; [reflexivity|]. split; [intros H0; apply Ht; right; right; exact H0|]. cbn. lia.
Qed.

(** Every text that is not empty begins with an element. *)
Lemma octal_prefix : forall n t, exists ds t', t = ds ++ t' /\ Forall octal ds /\ (length ds <= n)%nat /\
  (length ds = n \/ not_next octal t').
Proof.
  induction n as [|n IH]; intros t.
  - exists [], t. repeat split; auto.
  - destruct t as [|c t]; [exists [], []; repeat split; auto; cbn; lia|].
    destruct (is_octal c) eqn:O.
    + destruct (IH t) as (ds & t' & -> & F & L & E). exists (c :: ds), t'. split; [reflexivity|].
      split; [constructor; [apply is_octal_spec, O|exact F]|]. cbn. split; [lia|]. destruct E; [left; lia|right; assumption].
    + exists [], (c :: t). repeat split; auto; [cbn; lia|]. right. apply is_octal_false, O.
Qed.

Lemma step_total c t : exists s' out, step (c :: t) s' out.
Proof.
  destruct (Z.eq_dec c 92) as [->|N]; [|do 2 eexists; apply Plain; exact N].
  destruct t as [|y t]; [do 2 eexists; apply Lonely|].
  destruct (Z.eq_dec y 10); [do 2 eexists; apply Newline; auto|]. destruct (Z.eq_dec y 13); [do 2 eexists; apply Newline; auto|].
  destruct (letter_dec y) as [(x & Hx)|Hx]; [do 2 eexists; apply Letter; exact Hx|].
  destruct (Z.eq_dec y 120) as [->|N3].
  - destruct t as [|h t]; [do 2 eexists; apply Hex0; exact I|].
    destruct (hexval_dec h) as [(d & Hd)|Hd]; [|do 2 eexists; apply Hex0; exact Hd].
    destruct t as [|l t]; [do 2 eexists; apply Hex1; [exact Hd|exact I]|].
    destruct (hexval_dec l) as [(e & He)|He]; [do 2 eexists; apply Hex2; eassumption|].
    do 2 eexists. apply Hex1; [exact Hd|exact He].
  - destruct (is_octal y) eqn:O.
    + destruct (octal_prefix 2 t) as (ds & t' & -> & F & L & E). exists t', [octal_value (y :: ds) mod 256].
      change (92 :: y :: ds ++ t') with (92 :: (y :: ds) ++ t'). apply Octal.
      * constructor; [apply is_octal_spec, O|exact F].
      * cbn. lia.
      * destruct E; [left; cbn; lia|right; assumption].
    + do 2 eexists. apply Other; auto. apply is_octal_false, O.
Qed.

Lemma step_shorter s s' out : text s -> step s s' out -> text s' /\ (length s' < length s)%nat.
Proof. intros H S. destruct (step_model s s' out [] H S) as (c & t & _ & _ & _ & T & L & _). auto. Qed.

Lemma reads_total : forall n s, (length s <= n)%nat -> text s -> exists m, reads s m.
Proof.
  induction n as [|n IH]; intros s L Ht.
  - destruct s; [|cbn in L; lia]. exists []. constructor.
  - destruct s as [|c t]; [exists []; constructor|].
    destruct (step_total c t) as (s' & out & S). destruct (step_shorter _ _ _ Ht S) as (T & L').
    destruct (IH s' ltac:(cbn in *; lia) T) as (m & R). exists (out ++ m). econstructor; eassumption.
Qed.

Lemma step_det s a b x y : text s -> step s a x -> step s b y -> a = b /\ x = y.
Proof.
  intros Ht S1 S2. destruct (step_model s a x [] Ht S1) as (c & t & E & _ & C & _).
  destruct (step_model s b y [] Ht S2) as (c' & t' & E' & _ & C' & _). rewrite E in E'. injection E' as <- <-.
  rewrite C in C'. injection C' as Q ->. apply app_inj_tail in Q. tauto.
Qed.

Lemma step_nonnil s' out : ~ step [] s' out.
Proof. intros H. inversion H. Qed.

Lemma reads_det s m : text s -> reads s m -> forall m', reads s m' -> m = m'.
Proof.
  intros Ht R. induction R as [|s s' out m S R IH]; intros m' R'.
  - inversion R' as [|? ? ? ? S']; [reflexivity|]. exfalso. subst. exact (step_nonnil _ _ S').
  - inversion R' as [|a b o n S' R'']; subst; [exfalso; exact (step_nonnil _ _ S)|].
    destruct (step_det _ _ _ _ _ Ht S S') as (<- & <-). f_equal. apply IH; [|exact R''].
    exact (proj1 (step_shorter _ _ _ Ht S)).
Qed.

Lemma collapse_loop_spec s m : reads s m -> text s -> forall fuel r tsize, (length s < fuel)%nat -> 1 <= tsize ->
  collapse_loop fuel (s ++ 0 :: r) tsize = Some (firstn (Z.to_nat (tsize - 1)) m ++ [0]).
Proof.
  induction 1 as [|s s' out m S R IH]; intros Ht fuel r tsize Hf Hs.
  - destruct fuel as [|fuel]; [cbn in Hf; lia|]. cbn [collapse_loop app].
    destruct (Z.ltb_spec 1 tsize); destruct (Z.ltb_spec 0 tsize); try lia; rewrite firstn_nil; reflexivity.
  - destruct fuel as [|fuel]; [lia|]. destruct (step_model s s' out r Ht S) as (c & t & -> & Nc & C & T & L & Lo).
    cbn [collapse_loop app]. destruct (Z.ltb_spec 1 tsize) as [L1|L1].
    + destruct (Z.eqb_spec c 0); [contradiction|]. rewrite C.
      rewrite IH; [|exact T|lia|lia]. cbn [option_map]. f_equal. rewrite app_assoc. f_equal.
      destruct out as [|x [|y out]]; cbn [length] in *; [rewrite Z.sub_0_r; reflexivity| |lia].
      cbn [app]. replace (Z.to_nat (tsize - 1)) with (Datatypes.S (Z.to_nat (tsize - Z.of_nat 1 - 1))) by lia. reflexivity.
    + destruct (Z.ltb_spec 0 tsize); [|lia]. replace (Z.to_nat (tsize - 1)) with O by lia. reflexivity.
Qed.

Lemma collapse_spec s m r tsize : text s -> reads s m -> 1 <= tsize ->
  collapse (s ++ 0 :: r) tsize = Some (firstn (Z.to_nat (tsize - 1)) m ++ [0]).
Proof.
  intros Ht R Hs. unfold collapse. apply (collapse_loop_spec s m R Ht); [|exact Hs]. rewrite app_length. cbn. lia.
Qed.

Lemma collapse_zero from : collapse from 0 = Some [].
Proof. unfold collapse. destruct (length from); reflexivity. Qed.

(* ------------------------------------------------------------- expand *)

Lemma strchr_spec s c : strchr s c = existsb (Z.eqb c) s || (c =? 0).
Proof. reflexivity. Qed.

Lemma nth_hex d : 0 <= d < 16 -> nth (Z.to_nat d) HEX 0 = hexchar d.
Proof. intros H. apply Z.eqb_eq. exact (all_below 16 (fun d => nth (Z.to_nat d) HEX 0 =? hexchar d) eq_refl d H). Qed.

Lemma hi_nibble c : is_u8 c -> Z.land (Z.shiftr c 4) 15 = c / 16 /\ Z.land c 15 = c mod 16.
Proof.
  intros H. rewrite Z.shiftr_div_pow2 by lia. change 15 with (Z.ones 4). rewrite !Z.land_ones by lia.
  change (2 ^ 4) with 16. split; [|reflexivity]. apply Z.mod_small. red in H. split; [apply Z.div_pos; lia|].
  apply Z.div_lt_upper_bound; lia.
Qed.

Lemma expand_octet_spec special c : is_u8 c -> expand_octet special c = escape (specials special) c.
Proof.
  intros H. unfold expand_octet, escape. destruct (hi_nibble c H) as (-> & ->).
  assert (0 <= c / 16 < 16) by (red in H; split; [apply Z.div_pos; lia|apply Z.div_lt_upper_bound; lia]).
  pose proof (Z.mod_pos_bound c 16 ltac:(lia)). rewrite !nth_hex by assumption.
  assert (NS : not_special special c = negb (existsb (Z.eqb c) (specials special)) && (negb (c =? 0) || match special with None => true | _ => false end)).
  { destruct special as [s|]; cbn [not_special specials].
    - rewrite strchr_spec, negb_orb, orb_false_r. reflexivity.
    - cbn. rewrite orb_true_r. reflexivity. }
  rewrite NS. set (ex := existsb _ _). unfold BACKSLASH. cbn [controls letters map fst snd find].
  rewrite (Z.eqb_sym 0 c), (Z.eqb_sym 92 c), (Z.eqb_sym 7 c), (Z.eqb_sym 8 c), (Z.eqb_sym 12 c), (Z.eqb_sym 10 c), (Z.eqb_sym 13 c), (Z.eqb_sym 9 c), (Z.eqb_sym 11 c).
  destruct (Z.eqb_spec c 0) as [->|N0]; [cbn; rewrite andb_false_r; reflexivity|].
  destruct (Z.eqb_spec c 92) as [->|N1]; [cbn; rewrite !andb_false_r; reflexivity|].
  destruct (Z.eqb_spec c 7) as [->|N2]; [cbn; rewrite !andb_false_r; reflexivity|].
  destruct (Z.eqb_spec c 8) as [->|N3]; [cbn; rewrite !andb_false_r; reflexivity|].
  destruct (Z.eqb_spec c 12) as [->|N4]; [cbn; rewrite !andb_false_r; reflexivity|].
  destruct (Z.eqb_spec c 10) as [->|N5]; [cbn; rewrite !andb_false_r; reflexivity|].
  destruct (Z.eqb_spec c 13) as [->|N6]; [cbn; rewrite !andb_false_r; reflexivity|].
  destruct (Z.eqb_spec c 9) as [->|N7]; [cbn; rewrite !andb_false_r; reflexivity|].
  destruct (Z.eqb_spec c 11) as [->|N8]; [cbn; rewrite !andb_false_r; reflexivity|].
  cbn [negb orb]. rewrite !andb_true_r.
  replace ((32 <=? c) && (c <=? 91) || (93 <=? c) && (c <=? 126)) with ((32 <=? c) && (c <=? 126)).
  2: { destruct (Z.leb_spec 32 c), (Z.leb_spec c 126), (Z.leb_spec c 91), (Z.leb_spec 93 c); cbn; try reflexivity; lia. }
  destruct ex; cbn [negb andb]; [reflexivity|]. destruct ((32 <=? c) && (c <=? 126)); reflexivity.
Qed.

(** The order of the comparisons in the code amounts to comparing with the size
    of what is written. *)
Lemma expand_turn from fsize tsize special c : is_u8 c -> 1 <= tsize ->
  expand_loop (c :: from) (S fsize) tsize special =
  let out := escape (specials special) c in
  if tsize <=? Z.of_nat (length out) then Some [0]
  else option_map (app out) (expand_loop from fsize (tsize - Z.of_nat (length out)) special).
Proof.
  intros Hc Ht. cbv zeta. rewrite <- (expand_octet_spec special c Hc). cbn [expand_loop].
  assert (L : expand_octet special c =
    if not_special special c && ((32 <=? c) && (c <=? 91) || (93 <=? c) && (c <=? 126)) then [c]
    else if (c =? BACKSLASH) || (c =? 0) || (c =? 7) || (c =? 8) || (c =? 12) || (c =? 10) || (c =? 13)
            || (c =? 9) || (c =? 11) || negb (not_special special c) then [BACKSLASH; nth 1 (expand_octet special c) 0]
    else [BACKSLASH; 120; nth 2 (expand_octet special c) 0; nth 3 (expand_octet special c) 0]).
  { unfold expand_octet.
    destruct (not_special special c && _); [reflexivity|].
    repeat match goal with |- context [c =? ?n] => destruct (Z.eqb_spec c n); [reflexivity|cbn [orb]] end.
    destruct (negb (not_special special c)); reflexivity. }
  destruct (Z.ltb_spec 0 tsize); [|lia].
  destruct (not_special special c && ((32 <=? c) && (c <=? 91) || (93 <=? c) && (c <=? 126))) eqn:Pl.
  - rewrite L. cbn [length]. destruct (Z.leb_spec tsize 1); destruct (Z.leb_spec tsize (Z.of_nat 1)); try lia; reflexivity.
  - destruct ((c =? BACKSLASH) || (c =? 0) || (c =? 7) || (c =? 8) || (c =? 12) || (c =? 10) || (c =? 13)
            || (c =? 9) || (c =? 11) || negb (not_special special c)) eqn:Sh.
    + assert (LL : length (expand_octet special c) = 2%nat) by (rewrite L; reflexivity). rewrite LL.
      destruct (Z.leb_spec tsize 1); destruct (Z.leb_spec tsize 2); destruct (Z.leb_spec tsize (Z.of_nat 2)); try lia; reflexivity.
    + assert (LL : length (expand_octet special c) = 4%nat) by (rewrite L; reflexivity). rewrite LL.
      destruct (Z.leb_spec tsize 1); destruct (Z.leb_spec tsize 2); destruct (Z.leb_spec tsize 4); destruct (Z.leb_spec tsize (Z.of_nat 4)); try lia; reflexivity.
Qed.

Lemma expand_spec : forall l r tsize special, octets l -> 1 <= tsize ->
  exists k, (k <= length l)%nat /\
    expand (l ++ r) tsize (length l) special = Some (expansion special (firstn k l) ++ [0]) /\
    Z.of_nat (length (expansion special (firstn k l))) + 1 <= tsize /\
    (k = length l \/ tsize < Z.of_nat (length (expansion special (firstn (S k) l))) + 1).
Proof.
  unfold expand. induction l as [|c l IH]; intros r tsize special Ho Ht.
  - exists O. cbn [length app expand_loop firstn expansion flat_map]. destruct (Z.ltb_spec 0 tsize); [|lia].
    split; [lia|]. split; [reflexivity|]. split; [cbn [length]; lia|left; reflexivity].
  - apply Forall_cons_iff in Ho. destruct Ho as [Hc Ho]. cbn [length app].
    rewrite expand_turn by assumption. cbv zeta.
    set (o := escape (specials special) c).
    destruct (Z.leb_spec tsize (Z.of_nat (length o))) as [L|L].
    + exists O. split; [lia|]. split; [reflexivity|]. split; [cbn; lia|]. right. cbn [firstn expansion flat_map].
      fold o. rewrite app_nil_r. lia.
    + destruct (IH r (tsize - Z.of_nat (length o)) special Ho ltac:(lia)) as (k & K1 & K2 & K3 & K4).
      exists (S k). split; [lia|]. rewrite K2. cbn [option_map].
      change (firstn (S (S k)) (c :: l)) with (c :: firstn (S k) l). change (firstn (S k) (c :: l)) with (c :: firstn k l).
      assert (E : forall t, expansion special (c :: t) = o ++ expansion special t) by reflexivity. rewrite !E, !app_length, <- app_assoc.
      split; [reflexivity|]. split; [lia|]. destruct K4 as [K4|K4]; [left; lia|right; lia].
Qed.

Lemma expand_zero from fsize special : (fsize <= length from)%nat -> expand from 0 fsize special = Some [].
Proof. intros H. unfold expand. destruct fsize; [reflexivity|]. destruct from; [cbn in H; lia|]. reflexivity. Qed.

Lemma hexchar_val d : 0 <= d < 16 -> hexval (hexchar d) d.
Proof. intros H. unfold hexval, hexchar. destruct (Z.ltb_spec d 10); lia. Qed.

Lemma escape_step special c t : is_u8 c -> special_safe special -> (c = 0 -> not_next octal t) ->
  step (escape special c ++ t) t [c].
Proof.
  intros Hc Hs Hn. unfold escape. destruct (find (fun p => fst p =? c) controls) as [[a b]|] eqn:F.
  - apply find_some in F. destruct F as (In1 & E). cbn [fst] in E. apply Z.eqb_eq in E. subst a.
    destruct In1 as [E|In1].
    + injection E as <- <-. specialize (Hn eq_refl).
      change (step (92 :: [48] ++ t) t [octal_value [48] mod 256]). apply (Octal [48] t); [constructor; [red; lia|constructor]|cbn; lia|right; exact Hn].
    + apply Letter. apply in_map_iff in In1. destruct In1 as ((x & y) & E & In1). injection E as -> ->. exact In1.
  - assert (NC : forall b, ~ In (c, b) controls).
    { intros b I. apply (find_none _ _ F) in I. cbn in I. rewrite Z.eqb_refl in I. discriminate. }
    assert (N92 : c <> 92) by (intros ->; apply (NC 92); cbn; tauto).
    destruct (existsb (Z.eqb c) special) eqn:X.
    + apply existsb_exists in X. destruct X as (c' & I & E). apply Z.eqb_eq in E. subst c'.
      destruct (Hs c I) as (S1 & S2 & S3). apply Other; auto.
      * intros ->. apply (NC 110). cbn; tauto.
      * intros ->. apply (NC 114). cbn; tauto.
      * intros x Q. apply S3 in Q. contradiction.
    + destruct (_ && _); [apply Plain; exact N92|].
      replace [c] with [16 * (c / 16) + c mod 16] by (f_equal; pose proof (Z.div_mod c 16); lia).
      apply Hex2; apply hexchar_val; [|apply Z.mod_pos_bound; lia].
      red in Hc. split; [apply Z.div_pos; lia|]. apply Z.div_lt_upper_bound; lia.
Qed.

Lemma escape_head special c : is_u8 c -> exists h t, escape special c = h :: t /\ (h = 92 \/ h = c).
Proof.
  intros _. unfold escape. destruct (find _ controls) as [[a b]|]; [eexists; eexists; split; [reflexivity|auto]|].
  destruct (existsb _ _); [eexists; eexists; split; [reflexivity|auto]|].
  destruct (_ && _); eexists; eexists; (split; [reflexivity|auto]).
Qed.

Lemma expansion_reads special : special_safe (specials special) -> forall l, octets l -> nul_safe l ->
  reads (expansion special l) l.
Proof.
  intros Hs. induction l as [|c l IH]; intros Ho Hn; [constructor|].
  apply Forall_cons_iff in Ho. destruct Ho as [Hc Ho]. unfold expansion. cbn [flat_map].
  change (c :: l) with ([c] ++ l). econstructor.
  - apply escape_step; [exact Hc|exact Hs|]. intros ->. destruct l as [|d l]; [exact I|]. cbn [flat_map].
    pose proof (Hn [] d l eq_refl) as N. apply Forall_cons_iff in Ho. destruct (escape_head (specials special) d (proj1 Ho)) as (h & t & -> & [->| ->]); cbn; [unfold octal; lia|exact N].
  - apply IH; [exact Ho|]. intros a b d E. apply (Hn (c :: a) b d). rewrite E. reflexivity.
Qed.

Lemma escape_text special c x : is_u8 c -> In x (escape special c) -> x <> 0.
Proof.
  intros Hc Hx ->. revert Hx. unfold escape. destruct (find (fun p => fst p =? c) controls) as [[a b]|] eqn:F.
  - apply find_some in F. destruct F as (In1 & _). intros [Q|[Q|[]]]; [discriminate|]. subst b.
    cbn in In1. repeat (destruct In1 as [In1|In1]; [discriminate|]). destruct In1.
  - assert (c <> 0) by (intros ->; discriminate).
    destruct (existsb _ _); [intros [Q|[Q|[]]]; [discriminate|auto]|].
    destruct (_ && _); [intros [Q|[]]; auto|].
    assert (0 <= c / 16) by (red in Hc; apply Z.div_pos; lia). pose proof (Z.mod_pos_bound c 16 ltac:(lia)).
    unfold hexchar. intros [Q|[Q|[Q|[Q|[]]]]]; try discriminate.
    + destruct (c / 16 <? 10); lia.
    + destruct (c mod 16 <? 10); lia.
Qed.

Lemma expansion_text special l : octets l -> text (expansion special l).
Proof.
  intros Ho Q. unfold expansion in Q. apply in_flat_map in Q. destruct Q as (c & I & Q).
  unfold octets in Ho. rewrite Forall_forall in Ho. exact (escape_text _ _ _ (Ho c I) Q eq_refl).
Qed.

Lemma escape_printable special c x : is_u8 c -> (forall y, In y special -> 32 <= y <= 126) -> In x (escape special c) -> 32 <= x <= 126.
Proof.
  intros Hc Hs. unfold escape. destruct (find (fun p => fst p =? c) controls) as [[a b]|] eqn:F.
  - apply find_some in F. destruct F as (In1 & _). intros [<-|[<-|[]]]; [lia|].
    cbn in In1. repeat (destruct In1 as [In1|In1]; [injection In1 as <- <-; lia|]). destruct In1.
  - destruct (existsb (Z.eqb c) special) eqn:X.
    + apply existsb_exists in X. destruct X as (c' & I & E). apply Z.eqb_eq in E. subst c'. intros [<-|[<-|[]]]; [lia|auto].
    + destruct ((32 <=? c) && (c <=? 126)) eqn:P.
      * intros [<-|[]]. apply andb_true_iff in P. rewrite !Z.leb_le in P. exact P.
      * assert (0 <= c / 16 < 16) by (red in Hc; split; [apply Z.div_pos; lia|apply Z.div_lt_upper_bound; lia]).
        pose proof (Z.mod_pos_bound c 16 ltac:(lia)). unfold hexchar.
        intros [<-|[<-|[<-|[<-|[]]]]]; try lia; [destruct (Z.ltb_spec (c / 16) 10)|destruct (Z.ltb_spec (c mod 16) 10)]; lia.
Qed.

Lemma round_trip l special s1 s2 r : octets l -> nul_safe l -> special_safe (specials special) ->
  Z.of_nat (length (expansion special l)) < s1 -> Z.of_nat (length l) < s2 ->
  exists e, expand (l ++ r) s1 (length l) special = Some e /\ collapse e s2 = Some (l ++ [0]).
Proof.
  intros Ho Hn Hs H1 H2. destruct (expand_spec l r s1 special Ho ltac:(lia)) as (k & K1 & K2 & K3 & K4).
  assert (k = length l).
  { destruct K4 as [K4|K4]; [exact K4|]. exfalso.
    assert (Q : forall n l, (length (expansion special (firstn n l)) <= length (expansion special l))%nat).
    { clear. unfold expansion. induction n as [|n IH]; intros l; [cbn; lia|]. destruct l as [|c l]; [cbn; lia|]. cbn [firstn flat_map].
      rewrite !app_length. specialize (IH l). lia. }
    specialize (Q (S k) l). lia. }
  subst k. rewrite firstn_all in K2. eexists. split; [exact K2|].
  rewrite (collapse_spec _ l []); [|apply expansion_text, Ho|apply expansion_reads; assumption|lia].
  rewrite firstn_all2 by lia. reflexivity.
Qed.

(* --------------------------------------------------------------- trim *)

Lemma strnlen_spec : forall s n r, text s -> (length s < n)%nat -> strnlen (s ++ 0 :: r) n = Some (length s).
Proof.
  induction s as [|c s IH]; intros n r Ht L; (destruct n as [|n]; [lia|]); cbn [strnlen app]; [reflexivity|].
  destruct (Z.eqb_spec c 0) as [->|N]; [exfalso; apply Ht; left; reflexivity|].
  rewrite IH; [reflexivity|intros Q; apply Ht; right; exact Q|cbn in L; lia].
Qed.
Lemma strnlen_exact : forall s r, text s -> strnlen (s ++ r) (length s) = Some (length s).
Proof.
  induction s as [|c s IH]; intros r Ht; cbn [strnlen app length]; [reflexivity|].
  destruct (Z.eqb_spec c 0) as [->|N]; [exfalso; apply Ht; left; reflexivity|].
  rewrite IH; [reflexivity|intros Q; apply Ht; right; exact Q].
Qed.

Lemma trim_loop_le from : forall n, (trim_loop from n <= n)%nat.
Proof. induction n as [|n IH]; cbn [trim_loop]; [lia|]. destruct (_ =? _); lia. Qed.

Lemma trim_loop_spec : forall n s r, length s = n ->
  trimmed s (firstn (trim_loop (s ++ r) n) s).
Proof.
  induction n as [|n IH]; intros s r L.
  - destruct s; [|discriminate]. exists O. split; [reflexivity|left; reflexivity].
  - cbn [trim_loop]. destruct (@exists_last Z s) as (a & x & ->); [intros ->; discriminate|].
    rewrite app_length in L. cbn in L. assert (La : length a = n) by lia.
    assert (N : nth n ((a ++ [x]) ++ r) 0 = x) by (rewrite <- app_assoc, app_nth2 by lia; rewrite La, Nat.sub_diag; reflexivity).
    rewrite N. destruct (Z.eqb_spec x 32) as [->|Nx].
    + destruct (IH a ([32] ++ r) La) as (k & E & H). rewrite <- app_assoc.
      pose proof (trim_loop_le (a ++ [32] ++ r) n) as Le.
      assert (F : firstn (trim_loop (a ++ [32] ++ r) n) (a ++ [32]) = firstn (trim_loop (a ++ [32] ++ r) n) a).
      { rewrite firstn_app. replace (_ - length a)%nat with O by lia. cbn. apply app_nil_r. }
      rewrite F. exists (S k). split; [|exact H].
      rewrite E at 1. rewrite <- app_assoc. f_equal. clear. induction k; [reflexivity|]. cbn in *. f_equal. exact IHk.
    + exists O. rewrite firstn_all2 by (rewrite app_length; cbn; lia). cbn. rewrite app_nil_r. split; [reflexivity|].
      right. rewrite last_last. exact Nx.
Qed.

Lemma trim_size_spec s r : let size := trim_loop (s ++ r) (length s) in
  trim_size (s ++ r) (length s) =
    (if (Nat.ltb 0 size && Nat.ltb size (length s) && (nth (size - 1) (s ++ r) 0 =? 92) &&
         negb (Nat.ltb 1 size && (nth (size - 2) (s ++ r) 0 =? 92))) then S size else size).
Proof.
  intros size. unfold trim_size. fold size. pose proof (trim_loop_le (s ++ r) (length s)) as Le. fold size in Le.
  destruct (Nat.eqb_spec size 0) as [E|N]; [rewrite E; reflexivity|].
  replace (Nat.ltb 0 size) with true by (symmetry; apply Nat.ltb_lt; lia).
  destruct (Nat.eqb_spec (length s) size) as [E|N2].
  - replace (Nat.ltb size (length s)) with false by (symmetry; apply Nat.ltb_ge; lia). reflexivity.
  - replace (Nat.ltb size (length s)) with true by (symmetry; apply Nat.ltb_lt; lia). cbn [andb].
    unfold BACKSLASH. destruct (nth (size - 1) (s ++ r) 0 =? 92); cbn [negb orb andb]; [|reflexivity].
    destruct (Nat.ltb 1 size && _); reflexivity.
Qed.

Lemma trim_full s r fsize tsize : text s -> (length s < fsize)%nat \/ length s = fsize -> (1 <= tsize)%nat ->
  let full := firstn (trim_size (s ++ 0 :: r) (length s)) s in
  let out := firstn (tsize - 1) full in
  trim (s ++ 0 :: r) tsize fsize = Some (out ++ [0], length out).
Proof.
  intros Ht Hf Hs. cbv zeta. unfold trim.
  replace (strnlen (s ++ 0 :: r) fsize) with (Some (length s)).
  2: { destruct Hf as [L| <-]; [rewrite strnlen_spec by assumption; reflexivity|rewrite strnlen_exact by assumption; reflexivity]. }
  pose proof (trim_loop_le (s ++ 0 :: r) (length s)) as Le.
  assert (Lt : (trim_size (s ++ 0%Z :: r) (length s) <= length s)%nat).
  { rewrite trim_size_spec. cbv zeta. destruct (Nat.ltb_spec (trim_loop (s ++ 0 :: r) (length s)) (length s)).
    - destruct (_ && _); lia.
    - rewrite andb_false_r. cbn [andb]. exact Le. }
  set (size := trim_size (s ++ 0 :: r) (length s)) in *.
  assert (F : forall k, (k <= length s)%nat -> firstn k (s ++ 0 :: r) = firstn k s).
  { intros k Hk. rewrite firstn_app. replace (k - length s)%nat with O by lia. apply app_nil_r. }
  destruct (Nat.eqb_spec tsize 0); [lia|]. rewrite firstn_firstn.
  destruct (Nat.ltb_spec tsize size) as [L|L].
  - rewrite Nat.ltb_irrefl. rewrite F by lia. rewrite Nat.min_l by lia. rewrite firstn_length, Nat.min_l by lia. reflexivity.
  - destruct (Nat.ltb_spec size tsize) as [L2|L2].
    + rewrite F by lia. rewrite Nat.min_r by lia. rewrite firstn_length, Nat.min_l by lia. reflexivity.
    + assert (size = tsize) by lia. rewrite F by lia. rewrite Nat.min_l by lia. rewrite firstn_length, Nat.min_l by lia.
      rewrite H. reflexivity.
Qed.

Lemma trim_size_meaning s r n : (forall s', trimmed s s' -> s' = firstn (trim_loop (s ++ 0 :: r) (length s)) s -> ends_with_backslashes s' n) ->
  let s' := firstn (trim_loop (s ++ 0 :: r) (length s)) s in
  firstn (trim_size (s ++ 0 :: r) (length s)) s = if Nat.eqb n 1 && negb (Nat.eqb (length s') (length s)) then s' ++ [32] else s'.
Proof.
  intros He. set (size := trim_loop (s ++ 0 :: r) (length s)) in *. cbv zeta.
  pose proof (trim_loop_spec (length s) s (0 :: r) eq_refl) as T. fold size in T.
  specialize (He _ T eq_refl). pose proof (trim_loop_le (s ++ 0 :: r) (length s)) as Le. fold size in Le.
  assert (Ls : length (firstn size s) = size) by (rewrite firstn_length; lia). rewrite Ls.
  rewrite trim_size_spec. cbv zeta. fold size.
  assert (Nth : forall k, (k < size)%nat -> nth k (s ++ 0 :: r) 0 = nth k (firstn size s) 0).
  { intros k Hk. rewrite app_nth1 by lia. rewrite <- (firstn_skipn size s) at 1. rewrite app_nth1 by lia. reflexivity. }
  destruct T as (blanks & E & _). set (s' := firstn size s) in *.
  assert (S1 : (size < length s)%nat -> firstn (S size) s = s' ++ [32]).
  { intros L. rewrite E at 1. rewrite E in L. rewrite app_length, repeat_length, Ls in L.
    destruct blanks as [|blanks]; [lia|]. cbn [repeat]. rewrite firstn_app, Ls. replace (S size - size)%nat with 1%nat by lia.
    rewrite firstn_all2 by lia. reflexivity. }
  destruct He as (q & Eq & Lq).
  assert (Lsz : size = (length q + n)%nat) by (rewrite <- Ls, Eq, app_length, repeat_length; reflexivity).
  assert (Lst : forall x, (0 < length q)%nat -> nth (length q - 1) q x = last q x).
  { intros x. clear. destruct q as [|a q] using rev_ind; [cbn; lia|]. intros _. rewrite last_last, app_nth2; rewrite app_length; cbn; [|lia].
    replace (length q + 1 - 1 - length q)%nat with O by lia. reflexivity. }
  destruct n as [|[|n]].
  - cbn [Nat.eqb negb andb]. cbn [repeat] in Eq. rewrite app_nil_r in Eq. rewrite Nat.add_0_r in Lsz.
    destruct (Nat.ltb_spec 0 size) as [P|P]; [|reflexivity]. rewrite Nth by lia.
    destruct Lq as [->|Lq]; [cbn in Lsz; lia|]. rewrite Eq, Lsz, Lst by lia.
    destruct (Z.eqb_spec (last q 0) 92); [contradiction|]. rewrite andb_false_r. cbn [andb]. rewrite <- Lsz, <- Eq. reflexivity.
  - replace (Nat.eqb 1 1) with true by reflexivity. cbn [andb repeat] in *.
    replace (Nat.ltb 0 size) with true by (symmetry; apply Nat.ltb_lt; lia). cbn [andb].
    rewrite Nth by lia.
    assert (N1 : nth (size - 1) s' 0 = 92).
    { rewrite Eq, Lsz. rewrite app_nth2 by lia. replace (_ - _)%nat with O by lia. reflexivity. }
    rewrite N1. change (92 =? 92) with true. rewrite andb_true_r.
    assert (N2 : (Nat.ltb 1 size && (nth (size - 2) (s ++ 0 :: r) 0 =? 92)) = false).
    { destruct (Nat.ltb_spec 1 size); [|reflexivity]. cbn [andb]. rewrite Nth by lia. rewrite Eq, app_nth1 by lia.
      replace (size - 2)%nat with (length q - 1)%nat by lia. rewrite Lst by lia. destruct Lq as [->|Lq]; [cbn in Lsz; lia|].
      apply Z.eqb_neq, Lq. }
    rewrite N2. cbn [negb]. rewrite andb_true_r.
    destruct (Nat.ltb_spec size (length s)) as [L|L]; destruct (Nat.eqb_spec size (length s)); try lia; cbn [negb]; [apply S1, L|reflexivity].
  - replace (Nat.eqb (S (S n)) 1) with false by reflexivity. cbn [andb].
    assert (N2 : nth (size - 2) s' 0 = 92).
    { rewrite Eq, Lsz. rewrite app_nth2 by lia. replace (_ - _)%nat with n by lia.
      rewrite (nth_indep _ 0 92) by (rewrite repeat_length; lia). apply nth_repeat. }
    rewrite <- Nth in N2 by lia. rewrite N2. replace (Nat.ltb 1 size) with true by (symmetry; apply Nat.ltb_lt; lia).
    change (92 =? 92) with true. cbn [andb negb]. rewrite andb_false_r. reflexivity.
Qed.

Lemma printable_spec s r : text s -> Forall (fun c => 0 <= c < 128) s ->
  exists b, printable (s ++ 0 :: r) = Some b /\ (b = true <-> Forall (fun c => 32 <= c <= 126) s).
Proof.
  induction s as [|c s IH]; intros Ht F.
  - exists true. split; [reflexivity|]. split; [constructor|reflexivity].
  - apply Forall_cons_iff in F. destruct F as [Fc F]. cbn [app printable].
    destruct (Z.eqb_spec c 0) as [->|N]; [exfalso; apply Ht; left; reflexivity|].
    destruct (Z.leb_spec 128 c); [lia|]. destruct ((32 <=? c) && (c <=? 126)) eqn:P.
    + destruct IH as (b & E & I); [intros Q; apply Ht; right; exact Q|exact F|]. exists b. split; [exact E|].
      rewrite I, Forall_cons_iff. apply andb_true_iff in P. rewrite !Z.leb_le in P. tauto.
    + exists false. split; [reflexivity|]. split; [discriminate|]. intros Q. apply Forall_cons_iff in Q. destruct Q as [Q _].
      apply andb_false_iff in P. rewrite !Z.leb_gt in P. lia.
Qed.

(** A test for the restriction, for examples. *)
Fixpoint nul_safeb (l : list Z) : bool :=
  match l with
  | [] => true
  | c :: r => negb ((c =? 0) && match r with [] => false | b :: _ => is_octal b end) && nul_safeb r
  end.
Lemma nul_safeb_ok l : nul_safeb l = true -> nul_safe l.
Proof.
  intros H a b c E. subst l. induction a as [|x a IH]; cbn [app nul_safeb] in H; apply andb_true_iff in H; destruct H as [H1 H2].
  - cbn [Z.eqb andb] in H1. apply is_octal_false. destruct (is_octal b); [discriminate|reflexivity].
  - apply IH, H2.
Qed.
