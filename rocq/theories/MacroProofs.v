(** Proofs for macros. *)

From Coq Require Import ZArith List Bool Lia.
From Verif Require Import MacroModel MacroSpec.
Import ListNotations.
Local Open Scope Z_scope.

Lemma convert_value : forall t x, 0 < bits t -> value t (convert t x).
Proof.
  intros (sg, b) x B. unfold value, convert. cbn [signed bits] in *. assert (E : 2 ^ b = 2 * 2 ^ (b - 1)) by (rewrite <- Z.pow_succ_r by lia; f_equal; lia). assert (P : 0 < 2 ^ (b - 1)) by (apply Z.pow_pos_nonneg; lia).
  pose proof (Z.mod_pos_bound (x + 2 ^ (b - 1)) (2 ^ b) ltac:(lia)). pose proof (Z.mod_pos_bound x (2 ^ b) ltac:(lia)). destruct sg; lia.
Qed.
Lemma convert_id : forall t x, 0 < bits t -> value t x -> convert t x = x.
Proof.
  intros (sg, b) x B V. unfold value, convert in *. cbn [signed bits] in *. assert (E : 2 ^ b = 2 * 2 ^ (b - 1)) by (rewrite <- Z.pow_succ_r by lia; f_equal; lia). assert (P : 0 < 2 ^ (b - 1)) by (apply Z.pow_pos_nonneg; lia).
  destruct sg; rewrite Z.mod_small by lia; lia.
Qed.
Lemma convert_mod : forall t x y k, 0 < bits t -> y = x + k * 2 ^ bits t -> convert t y = convert t x.
Proof.
  intros (sg, b) x y k B ->. unfold convert. cbn [signed bits] in *. destruct sg; [replace (x + k * 2 ^ b + 2 ^ (b - 1)) with (x + 2 ^ (b - 1) + k * 2 ^ b) by lia|]; rewrite Z_mod_plus_full; reflexivity.
Qed.
Lemma promote_bits : forall t, 0 < bits t -> bits t <= bits (promote t) /\ 0 < bits (promote t).
Proof. intros t B. unfold promote. destruct (Z.ltb_spec (bits t) 32); cbn [bits]; lia. Qed.
(** To convert by way of a type that is no narrower changes nothing. *)
Lemma convert_promote : forall t x, 0 < bits t -> convert t (convert (promote t) x) = convert t x.
Proof.
  intros t x B. destruct (promote_bits t B) as (L & P). set (p := promote t) in *.
  assert (E : exists k, convert p x = x + k * 2 ^ bits p).
  { unfold convert. destruct (signed p).
    - exists (- ((x + 2 ^ (bits p - 1)) / 2 ^ bits p)). pose proof (Z.div_mod (x + 2 ^ (bits p - 1)) (2 ^ bits p) ltac:(apply Z.pow_nonzero; lia)). nia.
    - exists (- (x / 2 ^ bits p)). pose proof (Z.div_mod x (2 ^ bits p) ltac:(apply Z.pow_nonzero; lia)). nia. }
  destruct E as (k & ->). apply (convert_mod _ _ _ (k * 2 ^ (bits p - bits t))); [exact B|]. rewrite <- Z.mul_assoc, <- Z.pow_add_r by lia. do 3 f_equal. lia.
Qed.
Lemma zero_value : forall t, 0 < bits t -> value t 0.
Proof. intros (sg, b) B. unfold value. cbn [signed bits] in *. assert (0 < 2 ^ (b - 1)) by (apply Z.pow_pos_nonneg; lia). assert (0 < 2 ^ b) by (apply Z.pow_pos_nonneg; lia). destruct sg; lia. Qed.
Lemma issigned_ok : forall t, whole t -> issigned t = signed t.
Proof.
  intros t (n & N & B). assert (B0 : 0 < bits t) by lia. unfold issigned, complement. rewrite (convert_id t 0 B0 (zero_value t B0)), convert_promote by exact B0. destruct t as (sg, b). cbn [signed bits] in *.
  assert (E : 2 ^ b = 2 * 2 ^ (b - 1)) by (rewrite <- Z.pow_succ_r by lia; f_equal; lia). assert (P : 1 < 2 ^ (b - 1)) by (apply Z.pow_gt_1; lia).
  destruct sg; unfold convert; cbn [signed bits]; change (Z.lnot 0) with (-1).
  - rewrite Z.mod_small by lia. apply Z.ltb_lt. lia.
  - apply Z.ltb_ge. apply Z.mod_pos_bound. lia.
Qed.
(** Unit tests. *)
Lemma test_run : forall body c, item_run (Test body) c =
  (let '(on, c') := items_run body (Counters (tests c + 1) (errors c) (statuses c)) in if on then (true, Counters (tests c') (errors c') (statuses c' ++ [errors c' - errors c =? 0])) else (false, c')).
Proof. reflexivity. Qed.
Lemma test_wrong : forall body, wrong (Test body) = wrongs body.
Proof. reflexivity. Qed.
Definition good (i : item) : Prop := forall c, let '(n, on) := wrong i in
  exists c', item_run i c = (on, c') /\ errors c' = errors c + n /\ 0 <= n /\ exists l, statuses c' = statuses c ++ l.
Lemma good_all : forall l, Forall good l -> forall c, let '(n, on) := wrongs l in exists c', items_run l c = (on, c') /\ errors c' = errors c + n /\ 0 <= n /\ exists s, statuses c' = statuses c ++ s.
Proof.
  induction l as [|i l IH]; intros F c; cbn [wrongs items_run]; [exists c; repeat split; [lia|lia|exists []; rewrite app_nil_r; reflexivity]|]. inversion F as [|? ? G F']; subst. specialize (G c). destruct (wrong i) as (n, on). destruct G as (c1 & E & R & N & s & S). rewrite E.
  destruct on; [|exists c1; split; [reflexivity|]; split; [exact R|]; split; [exact N|exists s; exact S]]. specialize (IH F' c1). destruct (wrongs l) as (m, on'). destruct IH as (c2 & E2 & R2 & N2 & s2 & S2). exists c2. split; [exact E2|]. split; [lia|]. split; [lia|]. exists (s ++ s2). rewrite S2, S, app_assoc. reflexivity.
Qed.
Lemma good_item : forall i, good i.
Proof.
  fix REC 1. intros [body| |b|b| ]; intros c.
  - rewrite test_wrong. assert (F : Forall good body) by (induction body as [|i l IH]; constructor; [apply REC|exact IH]). pose proof (good_all body F (Counters (tests c + 1) (errors c) (statuses c))) as G. destruct (wrongs body) as (n, on). destruct G as (c' & E & R & N & s & S). cbn [errors statuses] in R, S. rewrite test_run, E.
    destruct on; eexists; (split; [reflexivity|]; split; [exact R|]; split; [exact N|]); [cbn [statuses]; rewrite S, <- app_assoc; eexists; reflexivity|exists s; exact S].
  - cbn. eexists. split; [reflexivity|]. cbn. split; [reflexivity|]. split; [lia|]. exists []. rewrite app_nil_r. reflexivity.
  - destruct b; cbn; eexists; (split; [reflexivity|]; cbn; split; [lia|]; split; [lia|]; exists []; rewrite app_nil_r; reflexivity).
  - cbn. eexists. split; [reflexivity|]. cbn. split; [lia|]. split; [lia|]. exists []. rewrite app_nil_r. reflexivity.
  - cbn. eexists. split; [reflexivity|]. cbn. split; [reflexivity|]. split; [lia|]. exists []. rewrite app_nil_r. reflexivity.
Qed.
