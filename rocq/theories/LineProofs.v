(** Proofs about lines. *)

From Coq Require Import ZArith List Bool Lia.
From Verif Require Import CInt CUtil NumberModel NumberSpec NumberProofs NumberProps LineModel LineSpec.
Import ListNotations.
Local Open Scope Z_scope.

Lemma same_eq : forall a b, same a b = true <-> a = b.
Proof.
  induction a as [|x a IH]; intros [|y b]; cbn [same]; try (split; [discriminate|congruence]); [tauto|].
  rewrite andb_true_iff, Z.eqb_eq, IH. split; [intros (-> & ->); reflexivity|intros E; injection E; auto].
Qed.

Lemma prefixed_iff : forall p s, prefixed p s = true <-> exists t, s = p ++ t.
Proof.
  induction p as [|x p IH]; intros s; cbn [prefixed]; [split; [intros _; exists s; reflexivity|reflexivity]|].
  destruct s as [|y s]; [split; [discriminate|intros (t & E); discriminate E]|]. rewrite andb_true_iff, Z.eqb_eq, IH. cbn [app]. split.
  - intros (-> & t & ->). exists t. reflexivity.
  - intros (t & E). injection E as -> ->. split; [reflexivity|exists t; reflexivity].
Qed.

Lemma begins_iff s : prefixed [47] s || prefixed [46; 47] s || prefixed [46; 46; 47] s = true <-> begins s.
Proof.
  rewrite !orb_true_iff, !prefixed_iff. unfold begins. split.
  - intros [[(t & E)|(t & E)]|(t & E)]; exists t; tauto.
  - intros (t & [E|[E|E]]); [left; left|left; right|right]; exists t; exact E.
Qed.

Lemma strrchr_none c : forall s, ~ In c s -> strrchr c s = None.
Proof.
  induction s as [|x s IH]; intros N; [reflexivity|]. cbn [strrchr]. rewrite IH by (intros I; apply N; right; exact I).
  destruct (Z.eqb_spec x c) as [->|_]; [exfalso; apply N; left; reflexivity|reflexivity].
Qed.
Lemma strrchr_last c : forall a b, ~ In c b -> strrchr c (a ++ c :: b) = Some (a, b).
Proof.
  induction a as [|x a IH]; intros b N; cbn [app strrchr].
  - rewrite strrchr_none by exact N. rewrite Z.eqb_refl. reflexivity.
  - rewrite IH by exact N. reflexivity.
Qed.
Lemma strrchr_some c : forall s a b, strrchr c s = Some (a, b) -> s = a ++ c :: b /\ ~ In c b.
Proof.
  induction s as [|x s IH]; intros a b E; [discriminate E|]. cbn [strrchr] in E. destruct (strrchr c s) as [(a' & b')|] eqn:R.
  - injection E as <- <-. destruct (IH _ _ eq_refl) as (-> & N). split; [reflexivity|exact N].
  - destruct (Z.eqb_spec x c) as [->|_]; [|discriminate E]. injection E as <- <-. split; [reflexivity|].
    intros I. apply in_split in I. destruct I as (l & r & ->). clear IH.
    assert (G : forall l r, strrchr c (l ++ c :: r) <> None).
    { clear. induction l as [|y l IH]; intros r; cbn [app strrchr].
      - destruct (strrchr c r) as [(? & ?)|]; [discriminate|]. rewrite Z.eqb_refl. discriminate.
      - specialize (IH r). destruct (strrchr c (l ++ c :: r)) as [(? & ?)|]; [discriminate|congruence]. }
    exact (G _ _ R).
Qed.
Lemma strrchr_absent c : forall s, strrchr c s = None -> ~ In c s.
Proof.
  induction s as [|x s IH]; intros E; [intros []|]. cbn [strrchr] in E. destruct (strrchr c s) as [(? & ?)|]; [discriminate E|].
  destruct (Z.eqb_spec x c) as [->|N]; [discriminate E|]. intros [I|I]; [congruence|exact (IH eq_refl I)].
Qed.

Lemma sign_signed pre i s : signed pre i -> (pre = [] -> forall t, s <> 43 :: t /\ s <> 45 :: t) -> sign (pre ++ s) = (i, s).
Proof.
  intros [] N; cbn [app sign]; try reflexivity. specialize (N eq_refl). destruct s as [|c s]; [reflexivity|]. cbn [sign].
  destruct (Z.eqb_spec c 45) as [->|_]; [exfalso; apply (proj2 (N s)); reflexivity|]. destruct (Z.eqb_spec c 43) as [->|_]; [exfalso; apply (proj1 (N s)); reflexivity|reflexivity].
Qed.
Lemma sign_some s i t : sign s = (i, t) -> exists pre, signed pre i /\ s = pre ++ t /\ (pre = [] -> forall u, t <> 43 :: u /\ t <> 45 :: u).
Proof.
  destruct s as [|c s]; cbn [sign].
  - intros E. injection E as <- <-. exists []. split; [constructor|]. split; [reflexivity|]. intros _ u. split; discriminate.
  - destruct (Z.eqb_spec c 45) as [->|N1]; [intros E; injection E as <- <-; exists [45]; split; [constructor|]; split; [reflexivity|discriminate]|].
    destruct (Z.eqb_spec c 43) as [->|N2]; [intros E; injection E as <- <-; exists [43]; split; [constructor|]; split; [reflexivity|discriminate]|].
    intros E. injection E as <- <-. exists []. split; [constructor|]. split; [reflexivity|]. intros _ u. split; congruence.
Qed.

(** Digits are neither signs nor colons. *)
Lemma denotes_digits base l n : denotes base l n -> Forall (fun c => c <> 58 /\ c <> 43 /\ c <> 45) l.
Proof.
  induction 1 as [|l n c d D IH I B]; [constructor|]. apply Forall_app. split; [exact IH|]. apply Forall_cons; [|constructor].
  unfold table in I. repeat (destruct I as [I|I]; [injection I as <- _; lia|]). destruct I.
Qed.
Lemma body_digits l n : body l n -> l <> [] /\ Forall (fun c => c <> 58 /\ c <> 43 /\ c <> 45) l.
Proof.
  intros [l' n' D N H|l' n' D H|x l' n' D N I].
  - split; [exact N|]. eapply denotes_digits, D.
  - split; [intros ->; discriminate H|]. eapply denotes_digits, D.
  - split; [discriminate|]. apply Forall_cons; [lia|]. apply Forall_cons; [|eapply denotes_digits, D]. destruct I as [<-|[<-|[]]]; lia.
Qed.

Lemma number_value s n : number s n -> number_unsigned s = (n, []).
Proof.
  intros (B & R). pose proof (C60_unsigned s n [] (numeral_plain [] s n (Forall_nil _) B) I) as E. rewrite app_nil_r in E. rewrite E.
  destruct (Z.ltb_spec (Z.abs n) (2 ^ 64)) as [_|L]; [|lia]. rewrite Z.mod_small by lia. reflexivity.
Qed.

Lemma offsets_all : forall l, Forall (fun x => x < 64) l -> offsets l = l.
Proof. induction 1 as [|x l H _ IH]; [reflexivity|]. cbn [offsets]. destruct (Z.leb_spec 64 x); [lia|]. rewrite IH. reflexivity. Qed.
Lemma offsets_some : forall l, length (offsets l) = length l -> Forall (fun x => x < 64) l.
Proof.
  induction l as [|x l IH]; cbn [offsets length]; [constructor|]. destruct (Z.leb_spec 64 x); cbn [length]; intros E; [discriminate E|].
  constructor; [assumption|]. apply IH. lia.
Qed.
Lemma debounced_bits n : forall ii mask i, 0 <= ii -> ii + Z.of_nat n <= 64 -> 0 <= i ->
  Z.testbit (debounced n ii mask) i = Z.testbit mask i || ((ii <=? i) && (i <? ii + Z.of_nat n)).
Proof.
  induction n as [|n IH]; intros ii mask i H1 H2 H3; cbn [debounced].
  - destruct (Z.leb_spec ii i); destruct (Z.ltb_spec i (ii + Z.of_nat 0)); cbn [andb]; try lia; rewrite ?orb_false_r; reflexivity.
  - rewrite IH by lia. rewrite Z.lor_spec, Z.shiftl_1_l. unfold u64. change 18446744073709551616 with (2 ^ 64). rewrite Z.mod_small by (split; [apply Z.pow_nonneg; lia|apply Z.pow_lt_mono_r; lia]).
    rewrite Z.pow2_bits_eqb by lia. rewrite <- orb_assoc. f_equal.
    destruct (Z.eqb_spec ii i), (Z.leb_spec (ii + 1) i), (Z.leb_spec ii i), (Z.ltb_spec i (ii + 1 + Z.of_nat n)), (Z.ltb_spec i (ii + Z.of_nat (S n))); cbn [andb orb]; try lia; reflexivity.
Qed.

Lemma scan_some : forall n ii line wanted k, scan n ii line wanted = Some k ->
  ii <= k < ii + Z.of_nat n /\ line k = Some wanted /\ wanted <> [] /\ forall j, ii <= j < k -> exists l, line j = Some l /\ l <> wanted.
Proof.
  induction n as [|n IH]; intros ii line wanted k E; [discriminate E|]. cbn [scan] in E. destruct (line ii) as [[|c l]|] eqn:L; [| |discriminate E].
  - destruct (IH _ _ _ _ E) as (R & A & N & F). split; [lia|]. split; [exact A|]. split; [exact N|]. intros j J. destruct (Z.eq_dec j ii) as [->|NE]; [exists []; split; [exact L|congruence]|]. apply F. lia.
  - destruct (same (c :: l) wanted) eqn:S.
    + injection E as <-. apply same_eq in S. subst wanted. split; [lia|]. split; [exact L|]. split; [discriminate|]. intros j J. lia.
    + destruct (IH _ _ _ _ E) as (R & A & N & F). split; [lia|]. split; [exact A|]. split; [exact N|]. intros j J. destruct (Z.eq_dec j ii) as [->|NE].
      * exists (c :: l). split; [exact L|]. intros Q. apply same_eq in Q. congruence.
      * apply F. lia.
Qed.
Lemma scan_first : forall n ii line wanted k, ii <= k < ii + Z.of_nat n -> line k = Some wanted -> wanted <> [] ->
  (forall j, ii <= j < k -> exists l, line j = Some l /\ l <> wanted) -> scan n ii line wanted = Some k.
Proof.
  induction n as [|n IH]; intros ii line wanted k R A N F; [lia|]. cbn [scan]. destruct (Z.eq_dec ii k) as [->|NE].
  - rewrite A. destruct wanted as [|c w]; [congruence|]. rewrite (proj2 (same_eq _ _) eq_refl). reflexivity.
  - destruct (F ii ltac:(lia)) as (l & L & D). rewrite L. destruct l as [|c l].
    + apply IH; try assumption; [lia|]. intros j J. apply F. lia.
    + destruct (same (c :: l) wanted) eqn:S; [apply same_eq in S; congruence|]. apply IH; try assumption; [lia|]. intros j J. apply F. lia.
Qed.
