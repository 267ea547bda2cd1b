From Coq Require Import ZArith List Bool Lia Arith.
From Verif Require Import CInt FibonacciModel FibonacciSpec.
Import ListNotations.
Local Open Scope Z_scope.

Definition fok (s : fibonacci) : Prop := 0 <= x0 s <= x1 s /\ x1 s <= xm s /\ xm s < 4294967296.

Lemma after_S' s n : after s (S n) = fst (next (after s n)).
Proof. reflexivity. Qed.

Lemma next_ok s : fok s ->
  fok (fst (next s)) /\ snd (next s) = x0 s /\ x0 (fst (next s)) = x1 s /\ xm (fst (next s)) = xm s /\
  x1 (fst (next s)) = if x0 s + x1 s <? xm s then x0 s + x1 s else x1 s.
Proof.
  intros (H1 & H2 & H3). unfold next, fok, u32. cbn [fst snd x0 x1 xm].
  rewrite (Z.mod_small (xm s - x1 s)) by lia. rewrite Z.gtb_ltb.
  destruct (x0 s <? xm s - x1 s) eqn:E.
  - apply Z.ltb_lt in E. rewrite Z.mod_small by lia.
    replace (x0 s + x1 s <? xm s) with true by (symmetry; apply Z.ltb_lt; lia). repeat split; lia.
  - apply Z.ltb_ge in E. 
    replace (x0 s + x1 s <? xm s) with false by (symmetry; apply Z.ltb_ge; lia). repeat split; lia.
Qed.

Lemma fibs_S a b n : fibs a b (S (S n)) = fibs a b n + fibs a b (S n).
Proof.
  revert a b. induction n as [|n IH]; intros a b; [cbn; lia|].
  change (fibs a b (S (S (S n)))) with (fibs b (a + b) (S (S n))). rewrite IH. reflexivity.
Qed.

Lemma fibs_mono a b n : 0 <= a <= b -> 0 <= fibs a b n <= fibs a b (S n).
Proof.
  revert a b. induction n as [|n IH]; intros a b H; [cbn; lia|].
  change (fibs a b (S (S n))) with (fibs b (a + b) (S n)). change (fibs a b (S n)) with (fibs b (a + b) n).
  apply IH. lia.
Qed.

Lemma fibs_mono_le a b n m : 0 <= a <= b -> (n <= m)%nat -> fibs a b n <= fibs a b m.
Proof.
  intros H L. induction L as [|m L IH]; [lia|]. pose proof (fibs_mono a b m H). lia.
Qed.

(** While the next element is below the limit the state is exact. *)
Lemma after_exact s n : fok s -> (forall k, (k < n)%nat -> fibs (x0 s) (x1 s) (S (S k)) < xm s) ->
  after s n = Fibonacci (fibs (x0 s) (x1 s) (S n)) (fibs (x0 s) (x1 s) n) (xm s).
Proof.
  intros H. induction n as [|n IH]; intros L.
  - destruct s; reflexivity.
  - rewrite after_S'. rewrite IH by (intros k Hk; apply L; lia).
    assert (F : fok (Fibonacci (fibs (x0 s) (x1 s) (S n)) (fibs (x0 s) (x1 s) n) (xm s))).
    { split; [apply fibs_mono; unfold fok in H; lia|]. cbn [x1 xm]. split; [|unfold fok in H; lia].
      destruct n; [unfold fok in H; cbn; lia|]. specialize (L n ltac:(lia)). unfold fok in H. cbn [x1]. lia. }
    destruct (next_ok _ F) as (_ & _ & E1 & E2 & E3). cbn [x0 x1 xm] in *.
    rewrite <- fibs_S in E3. specialize (L n ltac:(lia)).
    apply Z.ltb_lt in L. rewrite L in E3.
    destruct (fst (next _)) as [y1 y0 ym]. cbn [x0 x1 xm] in E1, E2, E3. congruence.
Qed.

Lemma after_stuck s n : fok s -> xm s <= x0 s + x1 s -> 
  after s (S n) = Fibonacci (x1 s) (x1 s) (xm s).
Proof.
  intros H L. induction n as [|n IH].
  - change (after s 1) with (fst (next s)). destruct (next_ok s H) as (_ & _ & E1 & E2 & E3).
    apply Z.ltb_ge in L. rewrite L in E3. destruct (fst (next s)) as [y1 y0 ym]. cbn in *. congruence.
  - rewrite after_S', IH. set (t := Fibonacci _ _ _).
    assert (F : fok t) by (unfold fok, t in *; cbn; lia).
    destruct (next_ok t F) as (_ & _ & E1 & E2 & E3).
    assert (L2 : xm t <= x0 t + x1 t) by (unfold t, fok in *; cbn; lia).
    apply Z.ltb_ge in L2. rewrite L2 in E3. destruct (fst (next t)) as [y1 y0 ym]. unfold t in *. cbn in *. congruence.
Qed.

Lemma value_x0 s n : value s n = x0 (after s n).
Proof. reflexivity. Qed.

(** As long as all the elements up to it are below the limit, the value is the
    element; and once an element reaches the limit the value is the one before
    it, for ever. *)
Lemma value_exact s n : fok s ->
  (n <= 1)%nat \/ fibs (x0 s) (x1 s) n < xm s -> value s n = fibs (x0 s) (x1 s) n.
Proof.
  intros H L. assert (H' : 0 <= x0 s <= x1 s) by (unfold fok in H; lia).
  destruct n as [|n]; [reflexivity|].
  rewrite value_x0, after_S'. destruct L as [L|L].
  - assert (n = O) by lia. subst. reflexivity.
  - destruct n as [|n]; [reflexivity|]. rewrite after_S'.
    assert (A : after s n = Fibonacci (fibs (x0 s) (x1 s) (S n)) (fibs (x0 s) (x1 s) n) (xm s)).
    { apply after_exact; [exact H|]. intros k Hk.
      pose proof (fibs_mono_le (x0 s) (x1 s) (S (S k)) (S (S n)) H' ltac:(lia)). lia. }
    assert (F : fok (after s n)).
    { rewrite A. split; [apply fibs_mono; exact H'|]. cbn [x1 xm].
      pose proof (fibs_mono_le (x0 s) (x1 s) (S n) (S (S n)) H' ltac:(lia)). unfold fok in H. lia. }
    destruct (next_ok _ F) as (F2 & _ & E1 & E2 & E3).
    rewrite A in E1, E2, E3, F2 |- *. cbn [x0 x1 xm] in *. rewrite <- fibs_S in E3. apply Z.ltb_lt in L. rewrite L in E3.
    destruct (next_ok _ F2) as (_ & _ & E4 & _). rewrite E4. exact E3.
Qed.

Lemma value_stuck s k n : fok s ->
  ((k <= 1)%nat \/ fibs (x0 s) (x1 s) k < xm s) -> (1 <= k)%nat -> xm s <= fibs (x0 s) (x1 s) (S k) -> (k <= n)%nat ->
  value s n = fibs (x0 s) (x1 s) k.
Proof.
  intros H Lk K Lm N. assert (H' : 0 <= x0 s <= x1 s) by (unfold fok in H; lia).
  destruct k as [|k]; [lia|].
  assert (A : after s k = Fibonacci (fibs (x0 s) (x1 s) (S k)) (fibs (x0 s) (x1 s) k) (xm s)).
  { apply after_exact; [exact H|]. intros j Hj. destruct Lk as [Lk|Lk]; [lia|].
    pose proof (fibs_mono_le (x0 s) (x1 s) (S (S j)) (S k) H' ltac:(lia)). lia. }
  assert (F : fok (after s k)).
  { rewrite A. split; [apply fibs_mono; exact H'|]. cbn [x1 xm]. unfold fok in H.
    destruct Lk as [Lk|Lk]; [|lia]. assert (k = O) by lia. subst. cbn. lia. }
  rewrite value_x0. replace n with (S (n - S k) + k)%nat by lia.
  assert (AA : forall m j t, after t (m + j) = after (after t j) m).
  { intros m. induction m as [|m IH]; intros j t; [reflexivity|]. cbn [Nat.add]. rewrite !after_S', IH. reflexivity. }
  rewrite AA. rewrite after_stuck; [|exact F|].
  - cbn [x0]. rewrite A. reflexivity.
  - rewrite A. cbn [x0 x1 xm]. rewrite <- fibs_S. exact Lm.
Qed.

Lemma after_ok s n : fok s -> fok (after s n) /\ xm (after s n) = xm s.
Proof.
  intros H. induction n as [|n [IH1 IH2]]; [auto|]. rewrite after_S'.
  destruct (next_ok _ IH1) as (F & _ & _ & E & _). split; [exact F|congruence].
Qed.

Lemma value_bounds s n : fok s -> 0 <= value s n <= value s (S n) /\ value s n <= xm s.
Proof.
  intros H. destruct (after_ok s n H) as [F E].
  rewrite !value_x0, after_S'. destruct (next_ok _ F) as (_ & _ & E1 & _). rewrite E1.
  unfold fok in F. lia.
Qed.

(** Histories that also change the limit. *)
Lemma history_ok : forall ops s, fok s -> raised (xm s) ops ->
  nondecreasing (x0 s) (history s ops) /\ Forall (fun v => v <= last_limit (xm s) ops) (history s ops).
Proof.
  assert (LL : forall ops m, raised m ops -> m <= last_limit m ops).
  { induction ops as [|[|v] ops IH]; intros m R; cbn in *; [lia|auto|]. destruct R as [R1 R2]. specialize (IH v R2). lia. }
  induction ops as [|[|v] ops IH]; intros s F R; cbn [history raised last_limit nondecreasing] in *; [auto| |].
  - destruct (next_ok s F) as (F' & E0 & E1 & E2 & _). destruct (IH _ F') as [I1 I2]; [rewrite E2; exact R|].
    rewrite E0. rewrite E1 in I1. rewrite E2 in I2.
    split.
    + split; [lia|]. assert (X : forall v w l, v <= w -> nondecreasing w l -> nondecreasing v l).
      { intros v w l Hv. destruct l; cbn; [auto|]. intros [H1 H2]. split; [lia|exact H2]. }
      eapply X; [|exact I1]. unfold fok in F. lia.
    + constructor; [|exact I2]. specialize (LL ops (xm s) R). unfold fok in F. lia.
  - destruct R as [R1 R2]. destruct (IH (fst (set_limit s v))) as [I1 I2].
    + unfold fok in *. cbn. lia.
    + exact R2.
    + auto.
Qed.
