From Coq Require Import ZArith List Bool Arith Lia Permutation.
From Verif Require Import CUtil ListModel ListSpec ListProofs ListProofs2 ListProofs3 ListProofs4.
Import ListNotations.
Local Open Scope nat_scope.

Lemma follow_S h k x : follow h (S k) x = next (h (follow h k x)).
Proof. revert x. induction k as [|k IH]; intros x; [reflexivity|]. change (follow h (S (S k)) x) with (follow h (S k) (next (h x))). rewrite IH. reflexivity. Qed.
Lemma back_S h k x : back h (S k) x = prev (h (back h k x)).
Proof. revert x. induction k as [|k IH]; intros x; [reflexivity|]. change (back h (S (S k)) x) with (back h (S k) (prev (h x))). rewrite IH. reflexivity. Qed.
Lemma back_chain h : forall l x y, chain h (y :: l ++ [x]) -> back h (S (length l)) x = y.
Proof.
  intros l. induction l as [|z l IH] using rev_ind; intros x y C.
  - destruct C as ((_ & A) & _). exact A.
  - change (y :: (l ++ [z]) ++ [x]) with ((y :: l ++ [z]) ++ [x]) in C. apply chain_app in C; [|discriminate|discriminate]. destruct C as (C & (_ & A) & _).
    change (y :: l ++ [z]) with ((y :: l) ++ [z]) in A. rewrite last_last in A. cbn [hd] in A.
    rewrite app_length. cbn [length]. rewrite Nat.add_1_r. change (back h (S (S (length l))) x) with (back h (S (length l)) (prev (h x))). rewrite A. apply IH. exact C.
Qed.

Lemma integral_follow h nodes x k : integral h nodes -> In x nodes -> In (follow h k x) nodes /\ root (h (follow h k x)) = root (h x).
Proof.
  intros H Hx. induction k as [|k (I1 & I2)]; [auto|]. rewrite follow_S. destruct (H _ I1) as (A1 & _ & _ & _ & _ & A2 & _). rewrite A2, I2. auto.
Qed.
Lemma integral_back h nodes x k : integral h nodes -> In x nodes -> In (back h k x) nodes /\ root (h (back h k x)) = root (h x).
Proof.
  intros H Hx. induction k as [|k (I1 & I2)]; [auto|]. rewrite back_S. destruct (H _ I1) as (_ & A1 & _ & _ & _ & _ & A2 & _). rewrite A2, I2. auto.
Qed.
Lemma integral_good h nodes x r : integral h nodes -> In x nodes -> r = root (h x) -> bad h x r = false.
Proof.
  intros H Hx ->. destruct (H _ Hx) as (_ & _ & _ & A1 & A2 & _). unfold bad. rewrite A1, A2, !Nat.eqb_refl. reflexivity.
Qed.

Theorem audit_null h rs x limit : represents h rs -> In x (concat rs) -> length (list_of x rs) < limit -> audit limit h x = NULL.
Proof.
  intros R Ix L. pose proof (represents_integral h rs R) as G. destruct (pick x rs Ix) as (A & l1 & l2 & B & E). subst rs. rewrite list_of_mid in L by exact (proj1 R).
  pose proof R as R'. apply represents_mid in R' as (_ & R'). apply Forall_inv in R'. apply ring_cyc in R' as (_ & C & _). apply cyc_rot in C.
  assert (CC : chain h (x :: (l2 ++ l1) ++ [x])).
  { change (x :: (l2 ++ l1) ++ [x]) with (((x :: l2) ++ l1) ++ [x]). apply chain_app; [discriminate|discriminate|]. split; [exact (proj1 C)|]. split; [exact (proj2 C)|exact I]. }
  pose proof (follow_chain _ _ _ _ CC) as Fn. pose proof (back_chain _ _ _ _ CC) as Bn.
  set (n := S (length (l2 ++ l1))) in *. assert (Ln : length (l1 ++ x :: l2) = n) by (unfold n; rewrite !app_length; cbn; lia). rewrite Ln in L. clear CC C Ln.
  assert (W : forall d i limit, d = n - i -> i < n -> n - i < limit -> audit_loop limit h (follow h i x) (back h i x) (root (h x)) = NULL).
  { induction d as [|d IH]; intros i lim Hd Hi Hl; [lia|]. destruct lim as [|[|lim]]; [lia|lia|]. cbn [audit_loop].
    destruct (integral_follow h _ x i G Ix) as (F1 & F2). destruct (integral_back h _ x i G Ix) as (B1 & B2).
    rewrite (integral_good h _ _ _ G F1 (eq_sym F2)), (integral_good h _ _ _ G B1 (eq_sym B2)).
    rewrite <- follow_S, <- back_S. destruct (Nat.eqb_spec (follow h (S i) x) (back h (S i) x)) as [E|E]; [reflexivity|].
    assert (S i <> n) by (intros Q; rewrite Q, Fn, Bn in E; congruence). apply (IH (S i) (S lim)); lia. }
  unfold audit. exact (W n 0 limit ltac:(lia) ltac:(unfold n; lia) ltac:(lia)).
Qed.

(** What a silent audit has established. *)
Definition fine (h : heap) (x r : nat) : Prop := root (h x) = r /\ prev (h (next (h x))) = x /\ next (h (prev (h x))) = x.
Lemma bad_fine h x r : bad h x r = false -> fine h x r.
Proof.
  unfold bad, fine. destruct (Nat.eqb_spec (root (h x)) r), (Nat.eqb_spec (prev (h (next (h x)))) x), (Nat.eqb_spec (next (h (prev (h x)))) x); cbn; try discriminate; auto.
Qed.
Lemma audit_loop_sound h x r : r <> NULL -> (forall k, follow h k x <> NULL /\ back h k x <> NULL) ->
  forall limit i, (forall j, j < i -> fine h (follow h j x) r /\ fine h (back h j x) r) ->
  audit_loop limit h (follow h i x) (back h i x) r = NULL ->
  exists k, 0 < k /\ follow h k x = back h k x /\ forall j, j < k -> fine h (follow h j x) r /\ fine h (back h j x) r.
Proof.
  intros Hr Hx. induction limit as [|limit IH]; intros i Hi; cbn [audit_loop].
  - destruct (bad h (follow h i x) r); [intros E; exfalso; apply (proj1 (Hx i) E)|]. destruct (bad h (back h i x) r); [intros E; exfalso; apply (proj2 (Hx i) E)|]. contradiction.
  - destruct (bad h (follow h i x) r) eqn:B1; [intros E; exfalso; apply (proj1 (Hx i) E)|]. destruct (bad h (back h i x) r) eqn:B2; [intros E; exfalso; apply (proj2 (Hx i) E)|].
    apply bad_fine in B1, B2. assert (Hi' : forall j, j < S i -> fine h (follow h j x) r /\ fine h (back h j x) r).
    { intros j Hj. destruct (Nat.eq_dec j i) as [->|]; [auto|apply Hi; lia]. }
    rewrite <- follow_S, <- back_S. destruct limit as [|limit]; [contradiction|].
    destruct (Nat.eqb_spec (follow h (S i) x) (back h (S i) x)) as [E|E].
    + intros _. exists (S i). split; [lia|]. auto.
    + apply IH. exact Hi'.
Qed.

Lemma visited_In h k x y : In y (visited h k x) <-> exists j, j < k /\ (y = follow h j x \/ y = back h j x).
Proof.
  unfold visited. rewrite in_app_iff, !in_map_iff. split.
  - intros [(j & E & H)|(j & E & H)]; apply in_seq in H; exists j; (split; [lia|]); [left|right]; congruence.
  - intros (j & H & [E|E]); [left|right]; exists j; (split; [congruence|apply in_seq; lia]).
Qed.

Theorem audit_sound limit h x : root (h x) <> NULL -> (forall k, follow h k x <> NULL /\ back h k x <> NULL) -> audit limit h x = NULL ->
  exists k, 0 < k /\ let m := follow h k x in let nodes := m :: visited h k x in
    In x nodes /\
    (forall y, In y nodes -> In (next (h y)) nodes /\ In (prev (h y)) nodes /\ prev (h (next (h y))) = y /\ next (h (prev (h y))) = y) /\
    (forall y, In y (visited h k x) -> root (h y) = root (h x)).
Proof.
  intros Hr Hx E. destruct (audit_loop_sound h x (root (h x)) Hr Hx limit 0 ltac:(intros; lia) E) as (k & K & M & F).
  exists k. split; [exact K|]. cbv zeta. set (m := follow h k x) in *.
  assert (P1 : prev (h m) = follow h (pred k) x /\ next (h (follow h (pred k) x)) = m).
  { destruct k as [|k]; [lia|]. cbn [pred]. destruct (F k ltac:(lia)) as ((_ & A & _) & _). unfold m. rewrite follow_S. auto. }
  assert (P2 : next (h m) = back h (pred k) x /\ prev (h (back h (pred k) x)) = m).
  { destruct k as [|k]; [lia|]. cbn [pred]. destruct (F k ltac:(lia)) as (_ & (_ & _ & A)). rewrite M, back_S. auto. }
  assert (V : forall j, j < k -> In (follow h j x) (visited h k x) /\ In (back h j x) (visited h k x)) by (intros j Hj; split; apply visited_In; exists j; auto).
  assert (Fv : forall y, In y (visited h k x) -> fine h y (root (h x))).
  { intros y Hy. apply visited_In in Hy as (j & Hj & [->| ->]); apply (F j Hj). }
  split; [right; apply (V 0 K)|]. split.
  - intros y [<-|Hy].
    + rewrite (proj1 P1), (proj1 P2). destruct (V (pred k) ltac:(lia)) as (V1 & V2). split; [right; exact V2|]. split; [right; exact V1|]. split; [apply P2|apply P1].
    + destruct (Fv y Hy) as (_ & A1 & A2). split; [|split; [|split; [exact A1|exact A2]]].
      * apply visited_In in Hy as (j & Hj & [->| ->]).
        -- rewrite <- follow_S. destruct (Nat.eq_dec (S j) k) as [E'|]; [left; unfold m; rewrite E'; reflexivity|right; apply V; lia].
        -- destruct j as [|j].
           ++ cbn [back]. destruct (Nat.eq_dec 1 k) as [E'|]; [left; unfold m; rewrite <- E'; reflexivity|right; apply visited_In; exists 1; split; [lia|left; reflexivity]].
           ++ right. rewrite back_S. destruct (F j ltac:(lia)) as (_ & (_ & _ & A)). rewrite A. apply V. lia.
      * apply visited_In in Hy as (j & Hj & [->| ->]).
        -- destruct j as [|j].
           ++ cbn [follow]. destruct (Nat.eq_dec 1 k) as [E'|]; [left; rewrite M, <- E'; reflexivity|right; apply visited_In; exists 1; split; [lia|right; reflexivity]].
           ++ right. rewrite follow_S. destruct (F j ltac:(lia)) as ((_ & A & _) & _). rewrite A. apply V. lia.
        -- rewrite <- back_S. destruct (Nat.eq_dec (S j) k) as [E'|]; [left; rewrite M, E'; reflexivity|right; apply V; lia].
  - intros y Hy. apply (Fv y Hy).
Qed.
