(** Proofs about the red-black trees: colouring and rotating. *)

From Coq Require Import ZArith List Bool Lia Sorting.Permutation.
From Verif Require Import CUtil TreeModel TreeSpec TreeProofs.
Import ListNotations.
Local Open Scope Z_scope.

(** All the nodes of a tree in its context. *)
Definition ptrs (k : ctx) (t : tree) : list Z := inorder t ++ cptrs k.

(** An action that turns a tree in its context into another. *)
Definition turns (s : st) (f : option st) (r : Z) (k : ctx) (t : tree) (k' : ctx) (t' : tree) : Prop :=
  exists s', f = Some s' /\ whole s' r k' t' /\ only (ptrs k t) r s s'.

Lemma in_ptrs k t q : In q (ptrs k t) <-> In q (inorder t) \/ In q (cptrs k).
Proof. unfold ptrs. apply in_app_iff. Qed.

(** Colouring the node at the focus. *)
Lemma color_ok s r k c l x rt c' : whole s r k (N c l x rt) ->
  turns s (set_color s x c') r k (N c l x rt) k (N c' l x rt).
Proof.
  intros [(X & (v & V) & L & R) C ND]. unfold turns, set_color. rewrite (change_eq _ _ _ _ V). eexists. split; [reflexivity|].
  split; [constructor|].
  - cbn [tree_at]. split; [exact X|]. split; [exists v; rewrite put_same; reflexivity|].
    split; [apply (tree_agree s); [|exact L]|apply (tree_agree s); [|exact R]]; intros q Q; apply put_other; intros ->; count x.
  - apply (ctx_agree s); [|reflexivity|exact C]. intros q Q. apply put_other. intros ->. count x.
  - exact ND.
  - eapply only_put; [exact V|reflexivity|]. apply in_ptrs. left. cbn. apply in_or_app. right. left. reflexivity.
Qed.

Lemma rotate_left_ok s r k c l x cy a y b : whole s r k (N c l x (N cy a y b)) ->
  turns s (rotate_left s x r) r k (N c l x (N cy a y b)) k (N cy (N c l x a) y b).
Proof.
  intros [(X & (v & V) & L & (Y & (w & W) & A & B)) C ND]. cbn [top] in *.
  assert (XY : x <> y) by (intros <-; count x).
  assert (XK : ~ In x (cptrs k)) by (intros I; count x).
  assert (NK : NoDup (cptrs k)) by (apply nodup_cnt; intros q; apply nodup_cnt with (q := q) in ND; rewrite count_occ_app in ND; lia).
  assert (NA : NoDup (inorder a)).
  { apply nodup_cnt; intros q; apply nodup_cnt with (q := q) in ND. cbn [inorder] in ND.
    repeat first [rewrite count_occ_app in ND | rewrite cnt_cons in ND]. lia. }
  assert (TA : a <> E -> top a <> x /\ top a <> y /\ ~ In (top a) (inorder l) /\ ~ In (top a) (inorder b) /\ ~ In (top a) (cptrs k)).
  { intros NE. pose proof (top_cnt a _ eq_refl NE) as H.
    split; [intros Q; rewrite Q in *; count x|]. split; [intros Q; rewrite Q in *; count y|].
    split; [intros Q; count (top a)|]. split; intros Q; count (top a). }
  assert (TK : k <> [] -> ctop k <> x /\ ctop k <> y /\ ~ In (ctop k) (inorder l) /\ ~ In (ctop k) (inorder a) /\ ~ In (ctop k) (inorder b)).
  { intros NE. pose proof (ctop_cnt k _ eq_refl NE) as H.
    split; [intros Q; rewrite Q in *; count x|]. split; [intros Q; rewrite Q in *; count y|].
    split; [intros Q; count (ctop k)|]. split; intros Q; count (ctop k). }
  unfold turns, rotate_left. rewrite !(get_eq _ _ _ _ V). cbn [bind right parent]. rewrite (get_eq _ _ _ _ W). cbn [bind left].
  unfold set_right at 1. rewrite (change_eq _ _ _ _ V). cbn [bind with_right]. 
  set (s1 := put s x _). rewrite (get_eq right s1 x _ (put_same _ _ _)). cbn [right with_right bind].
  assert (W1 : nodes s1 y = Some (Node x (top a) (top b) r cy false w)) by (unfold s1; rewrite put_other by congruence; exact W).
  rewrite (get_eq left s1 y _ W1). cbn [bind left].
  assert (A1 : tree_at s1 r y a) by (apply (tree_agree s); [|exact A]; intros q Q; apply put_other; intros ->; count x).
  destruct (reparent s1 r y a x A1 NA) as (s2 & E2 & A2 & F2 & R2 & O2). rewrite E2. cbn [bind]. clear E2.
  assert (N2 : forall q, q = x \/ q = y \/ In q (inorder l) \/ In q (inorder b) \/ In q (cptrs k) -> nodes s2 q = nodes s1 q).
  { intros q Q. apply F2. destruct a; [auto|]. left. destruct TA as (T1 & T2 & T3 & T4 & T5); [discriminate|].
    intros ->. destruct Q as [Q|[Q|[Q|[Q|Q]]]]; auto. }
  assert (W2 : nodes s2 y = Some (Node x (top a) (top b) r cy false w)) by (rewrite N2 by auto; exact W1).
  unfold set_left at 1. rewrite (change_eq _ _ _ _ W2). cbn [bind]. set (s3 := put s2 y _).
  unfold set_parent at 1. rewrite (change_eq _ s3 y _ (put_same _ _ _)). cbn [bind]. set (s4 := put s3 y _).
  assert (C4 : ctx_at s4 r x k).
  { apply (ctx_agree s); [|cbn; rewrite R2; reflexivity|exact C]. intros q Q. unfold s4, s3.
    assert (q <> y) by (intros ->; count y). assert (q <> x) by (intros ->; count x).
    rewrite !put_other by assumption. rewrite N2 by auto. unfold s1. apply put_other. assumption. }
  destruct (link_ok s4 r x k y x C4 NK X XK) as ((s5 & E5 & C5 & F5 & R5 & O5) & _).
  unfold link_lr in E5. rewrite E5. cbn [bind]. clear E5.
  assert (N5 : forall q, q = x \/ q = y \/ In q (inorder l) \/ In q (inorder a) \/ In q (inorder b) -> nodes s5 q = nodes s4 q).
  { intros q Q. apply F5. destruct k; [auto|]. left. destruct TK as (T1 & T2 & T3 & T4 & T5); [discriminate|].
    intros ->. destruct Q as [Q|[Q|[Q|[Q|Q]]]]; auto. }
  assert (V5 : nodes s5 x = Some (Node (ctop k) (top l) (top a) r c false v)).
  { rewrite N5 by auto. unfold s4, s3. rewrite !put_other by exact XY. rewrite N2 by auto. unfold s1. rewrite put_same. reflexivity. }
  unfold set_parent at 1. rewrite (change_eq _ _ _ _ V5). eexists. split; [reflexivity|]. set (s6 := put s5 x _).
  assert (G : forall q, q <> x -> q <> y -> In q (inorder l) \/ In q (inorder b) -> nodes s6 q = nodes s q).
  { intros q Q1 Q2 I. unfold s6. rewrite put_other by exact Q1. rewrite N5 by tauto. unfold s4, s3. rewrite !put_other by exact Q2.
    rewrite N2 by tauto. unfold s1. apply put_other. exact Q1. }
  split; [constructor|].
  - cbn [tree_at top]. split; [exact Y|]. split; [exists w; unfold s6; rewrite put_other by congruence; rewrite N5 by auto; unfold s4; rewrite put_same; reflexivity|].
    split; [split; [exact X|]; split; [exists v; unfold s6; rewrite put_same; reflexivity|split]|].
    + apply (tree_agree s); [|exact L]. intros q Q. apply G; [intros ->; count x|intros ->; count y|auto].
    + apply (tree_agree s2); [|exact A2]. intros q Q. unfold s6. rewrite put_other by (intros ->; count x). rewrite N5 by auto.
      unfold s4, s3. rewrite !put_other by (intros ->; count y). reflexivity.
    + apply (tree_agree s); [|exact B]. intros q Q. apply G; [intros ->; count x|intros ->; count y|auto].
  - apply (ctx_agree s5); [|reflexivity|exact C5]. intros q Q. apply put_other. intros ->. count x.
  - apply nodup_cnt. intros q. apply nodup_cnt with (q := q) in ND. cbn [inorder] in *.
    repeat first [rewrite count_occ_app in * | rewrite cnt_cons in *]. lia.
  - assert (IX : In x (ptrs k (N c l x (N cy a y b)))) by (apply in_ptrs; left; cbn; apply in_or_app; right; left; reflexivity).
    assert (IY : In y (ptrs k (N c l x (N cy a y b)))) by (apply in_ptrs; left; cbn; apply in_or_app; right; right; apply in_or_app; right; left; reflexivity).
    apply (only_trans _ _ _ s1); [eapply only_put; [exact V|reflexivity|exact IX]|].
    apply (only_trans _ _ _ s2).
    { apply O2. intros NE. apply in_ptrs. left. cbn. apply in_or_app. right. right. apply in_or_app. left. apply in_cnt. apply top_cnt; auto. }
    apply (only_trans _ _ _ s3); [eapply only_put; [exact W2|reflexivity|exact IY]|].
    apply (only_trans _ _ _ s4); [eapply only_put; [apply put_same|reflexivity|exact IY]|].
    apply (only_trans _ _ _ s5); [|eapply only_put; [exact V5|reflexivity|exact IX]].
    apply O5. intros NE. apply in_ptrs. right. apply in_cnt. apply ctop_cnt; auto.
Qed.

Lemma rotate_right_ok s r k c rt x cy a y b : whole s r k (N c (N cy a y b) x rt) ->
  turns s (rotate_right s x r) r k (N c (N cy a y b) x rt) k (N cy a y (N c b x rt)).
Proof.
  intros [(X & (v & V) & (Y & (w & W) & A & B) & R) C ND]. cbn [top] in *.
  assert (XY : x <> y) by (intros <-; count x).
  assert (XK : ~ In x (cptrs k)) by (intros I; count x).
  assert (NK : NoDup (cptrs k)) by (apply nodup_cnt; intros q; apply nodup_cnt with (q := q) in ND; rewrite count_occ_app in ND; lia).
  assert (NB : NoDup (inorder b)).
  { apply nodup_cnt; intros q; apply nodup_cnt with (q := q) in ND. cbn [inorder] in ND.
    repeat first [rewrite count_occ_app in ND | rewrite cnt_cons in ND]. lia. }
  assert (TB : b <> E -> top b <> x /\ top b <> y /\ ~ In (top b) (inorder rt) /\ ~ In (top b) (inorder a) /\ ~ In (top b) (cptrs k)).
  { intros NE. pose proof (top_cnt b _ eq_refl NE) as H.
    split; [intros Q; rewrite Q in *; count x|]. split; [intros Q; rewrite Q in *; count y|].
    split; [intros Q; count (top b)|]. split; intros Q; count (top b). }
  assert (TK : k <> [] -> ctop k <> x /\ ctop k <> y /\ ~ In (ctop k) (inorder rt) /\ ~ In (ctop k) (inorder a) /\ ~ In (ctop k) (inorder b)).
  { intros NE. pose proof (ctop_cnt k _ eq_refl NE) as H.
    split; [intros Q; rewrite Q in *; count x|]. split; [intros Q; rewrite Q in *; count y|].
    split; [intros Q; count (ctop k)|]. split; intros Q; count (ctop k). }
  unfold turns, rotate_right. rewrite !(get_eq _ _ _ _ V). cbn [bind left parent]. rewrite (get_eq _ _ _ _ W). cbn [bind right].
  unfold set_left at 1. rewrite (change_eq _ _ _ _ V). cbn [bind with_left].
  set (s1 := put s x _). rewrite (get_eq left s1 x _ (put_same _ _ _)). cbn [left with_left bind].
  assert (W1 : nodes s1 y = Some (Node x (top a) (top b) r cy false w)) by (unfold s1; rewrite put_other by congruence; exact W).
  rewrite (get_eq right s1 y _ W1). cbn [bind right].
  assert (B1 : tree_at s1 r y b) by (apply (tree_agree s); [|exact B]; intros q Q; apply put_other; intros ->; count x).
  destruct (reparent s1 r y b x B1 NB) as (s2 & E2 & B2 & F2 & R2 & O2). rewrite E2. cbn [bind]. clear E2.
  assert (N2 : forall q, q = x \/ q = y \/ In q (inorder rt) \/ In q (inorder a) \/ In q (cptrs k) -> nodes s2 q = nodes s1 q).
  { intros q Q. apply F2. destruct b; [auto|]. left. destruct TB as (T1 & T2 & T3 & T4 & T5); [discriminate|].
    intros ->. destruct Q as [Q|[Q|[Q|[Q|Q]]]]; auto. }
  assert (W2 : nodes s2 y = Some (Node x (top a) (top b) r cy false w)) by (rewrite N2 by auto; exact W1).
  unfold set_right at 1. rewrite (change_eq _ _ _ _ W2). cbn [bind]. set (s3 := put s2 y _).
  unfold set_parent at 1. rewrite (change_eq _ s3 y _ (put_same _ _ _)). cbn [bind]. set (s4 := put s3 y _).
  assert (C4 : ctx_at s4 r x k).
  { apply (ctx_agree s); [|cbn; rewrite R2; reflexivity|exact C]. intros q Q. unfold s4, s3.
    assert (q <> y) by (intros ->; count y). assert (q <> x) by (intros ->; count x).
    rewrite !put_other by assumption. rewrite N2 by auto. unfold s1. apply put_other. assumption. }
  destruct (link_ok s4 r x k y x C4 NK X XK) as (_ & (s5 & E5 & C5 & F5 & R5 & O5)).
  unfold link_rl in E5. rewrite E5. cbn [bind]. clear E5.
  assert (N5 : forall q, q = x \/ q = y \/ In q (inorder rt) \/ In q (inorder a) \/ In q (inorder b) -> nodes s5 q = nodes s4 q).
  { intros q Q. apply F5. destruct k; [auto|]. left. destruct TK as (T1 & T2 & T3 & T4 & T5); [discriminate|].
    intros ->. destruct Q as [Q|[Q|[Q|[Q|Q]]]]; auto. }
  assert (V5 : nodes s5 x = Some (Node (ctop k) (top b) (top rt) r c false v)).
  { rewrite N5 by auto. unfold s4, s3. rewrite !put_other by exact XY. rewrite N2 by auto. unfold s1. rewrite put_same. reflexivity. }
  unfold set_parent at 1. rewrite (change_eq _ _ _ _ V5). eexists. split; [reflexivity|]. set (s6 := put s5 x _).
  assert (G : forall q, q <> x -> q <> y -> In q (inorder rt) \/ In q (inorder a) -> nodes s6 q = nodes s q).
  { intros q Q1 Q2 I. unfold s6. rewrite put_other by exact Q1. rewrite N5 by tauto. unfold s4, s3. rewrite !put_other by exact Q2.
    rewrite N2 by tauto. unfold s1. apply put_other. exact Q1. }
  split; [constructor|].
  - cbn [tree_at top]. split; [exact Y|]. split; [exists w; unfold s6; rewrite put_other by congruence; rewrite N5 by auto; unfold s4; rewrite put_same; reflexivity|].
    split; [|split; [exact X|]; split; [exists v; unfold s6; rewrite put_same; reflexivity|split]].
    + apply (tree_agree s); [|exact A]. intros q Q. apply G; [intros ->; count x|intros ->; count y|auto].
    + apply (tree_agree s2); [|exact B2]. intros q Q. unfold s6. rewrite put_other by (intros ->; count x). rewrite N5 by auto.
      unfold s4, s3. rewrite !put_other by (intros ->; count y). reflexivity.
    + apply (tree_agree s); [|exact R]. intros q Q. apply G; [intros ->; count x|intros ->; count y|auto].
  - apply (ctx_agree s5); [|reflexivity|exact C5]. intros q Q. apply put_other. intros ->. count x.
  - apply nodup_cnt. intros q. apply nodup_cnt with (q := q) in ND. cbn [inorder] in *.
    repeat first [rewrite count_occ_app in * | rewrite cnt_cons in *]. lia.
  - assert (IX : In x (ptrs k (N c (N cy a y b) x rt))) by (apply in_ptrs; left; cbn; apply in_or_app; right; left; reflexivity).
    assert (IY : In y (ptrs k (N c (N cy a y b) x rt))) by (apply in_ptrs; left; cbn; apply in_or_app; left; apply in_or_app; right; left; reflexivity).
    apply (only_trans _ _ _ s1); [eapply only_put; [exact V|reflexivity|exact IX]|].
    apply (only_trans _ _ _ s2).
    { apply O2. intros NE. apply in_ptrs. left. cbn. apply in_or_app. left. apply in_or_app. right. right. apply in_cnt. apply top_cnt; auto. }
    apply (only_trans _ _ _ s3); [eapply only_put; [exact W2|reflexivity|exact IY]|].
    apply (only_trans _ _ _ s4); [eapply only_put; [apply put_same|reflexivity|exact IY]|].
    apply (only_trans _ _ _ s5); [|eapply only_put; [exact V5|reflexivity|exact IX]].
    apply O5. intros NE. apply in_ptrs. right. apply in_cnt. apply ctop_cnt; auto.
Qed.

(** * The same, on whole trees *)

(** An action that turns the tree of a root into another with the same nodes in the
    same order. *)
Definition morph (s : st) (f : option st) (r : Z) (t t' : tree) : Prop :=
  exists s', f = Some s' /\ whole s' r [] t' /\ inorder t' = inorder t /\ only (inorder t) r s s'.

Lemma in_plug k : forall t q, In q (inorder (plug k t)) <-> In q (ptrs k t).
Proof.
  induction k as [|[c x rt|c l x] k IH]; intros t q; cbn [plug].
  - unfold ptrs. cbn. rewrite app_nil_r. reflexivity.
  - rewrite IH, !in_ptrs. cbn. rewrite !in_app_iff. cbn. tauto.
  - rewrite IH, !in_ptrs. cbn. rewrite !in_app_iff. cbn. tauto.
Qed.

Lemma inorder_plug_eq k t t' : inorder t = inorder t' -> inorder (plug k t) = inorder (plug k t').
Proof. intros H. rewrite !inorder_plug, H. reflexivity. Qed.

Lemma turns_morph s f r k t t' : turns s f r k t k t' -> inorder t' = inorder t -> morph s f r (plug k t) (plug k t').
Proof.
  intros (s' & E1 & W & O) I. exists s'. split; [exact E1|]. split; [exact (proj1 (whole_plug s' r k t') W)|]. split; [apply inorder_plug_eq, I|].
  eapply only_sub; [|exact O]. intros q Q. apply in_plug, Q.
Qed.

Lemma morph_id s r t : whole s r [] t -> morph s (Some s) r t t.
Proof. intros W. exists s. split; [reflexivity|]. split; [exact W|]. split; [reflexivity|apply only_refl]. Qed.

Lemma morph_bind s f g r t t1 t2 : morph s f r t t1 -> (forall s1, whole s1 r [] t1 -> morph s1 (g s1) r t1 t2) ->
  morph s (bind f g) r t t2.
Proof.
  intros (s1 & -> & W1 & I1 & O1) H. destruct (H s1 W1) as (s2 & E2 & W2 & I2 & O2). exists s2. cbn [bind].
  split; [exact E2|]. split; [exact W2|]. split; [congruence|]. rewrite I1 in O2. exact (only_trans _ _ _ _ _ O1 O2).
Qed.

Lemma bind_assoc {A B C} (f : option A) (g : A -> option B) (h : B -> option C) :
  bind (bind f g) h = bind f (fun x => bind (g x) h).
Proof. destruct f; reflexivity. Qed.

Lemma color_m s r k c l x rt c' : whole s r [] (plug k (N c l x rt)) ->
  morph s (set_color s x c') r (plug k (N c l x rt)) (plug k (N c' l x rt)).
Proof. intros W. apply turns_morph; [apply color_ok, (proj2 (whole_plug s r k _)), W|reflexivity]. Qed.
Lemma left_m s r k c l x cy a y b : whole s r [] (plug k (N c l x (N cy a y b))) ->
  morph s (rotate_left s x r) r (plug k (N c l x (N cy a y b))) (plug k (N cy (N c l x a) y b)).
Proof. intros W. apply turns_morph; [apply rotate_left_ok, (proj2 (whole_plug s r k _)), W|cbn; rewrite <- app_assoc; reflexivity]. Qed.
Lemma right_m s r k c rt x cy a y b : whole s r [] (plug k (N c (N cy a y b) x rt)) ->
  morph s (rotate_right s x r) r (plug k (N c (N cy a y b) x rt)) (plug k (N cy a y (N c b x rt))).
Proof. intros W. apply turns_morph; [apply rotate_right_ok, (proj2 (whole_plug s r k _)), W|cbn; rewrite <- app_assoc; reflexivity]. Qed.

Lemma node_at s r k c l x rt : whole s r [] (plug k (N c l x rt)) ->
  x <> 0 /\ exists v, nodes s x = Some (Node (ctop k) (top l) (top rt) r c false v).
Proof. intros W. apply (proj2 (whole_plug s r k _)) in W. destruct W as [(X & V & _) _ _]. auto. Qed.

Lemma subtree_at s r k t : whole s r [] (plug k t) -> tree_at s r (ctop k) t.
Proof. intros W. apply (proj2 (whole_plug s r k t)) in W. apply W. Qed.

Lemma nodup_at s r k t : whole s r [] (plug k t) -> NoDup (inorder t ++ cptrs k).
Proof. intros W. apply (proj2 (whole_plug s r k t)) in W. apply W. Qed.

Lemma root_at s r t : whole s r [] t -> r <> 0 /\ roots s r = top t.
Proof. intros [_ C _]. exact C. Qed.

(** The tests of children. *)
Lemma red_ok s r par t : tree_at s r par t -> real_and_red s (top t) = Some (negb (isb t)).
Proof.
  unfold real_and_red, isleaf, isred. destruct t as [|c l x rt]; cbn [top isb]; [reflexivity|].
  intros (X & (v & V) & _). destruct (Z.eqb_spec x 0); [contradiction|]. rewrite (get_eq _ _ _ _ V). destruct c; reflexivity.
Qed.
Lemma black_ok s r par t : tree_at s r par t -> leaf_or_black s (top t) = Some (isb t).
Proof.
  unfold leaf_or_black, isleaf, isblack. destruct t as [|c l x rt]; cbn [top isb]; [reflexivity|].
  intros (X & (v & V) & _). destruct (Z.eqb_spec x 0); [contradiction|]. rewrite (get_eq _ _ _ _ V). destruct c; reflexivity.
Qed.

(** * Red-black trees in contexts *)

(** The parent lets its child be red. *)
Definition accepts (k : ctx) : bool := match k with [] => false | FL c _ _ :: _ | FR c _ _ :: _ => c end.
(** The rest of the tree is red-black when a tree of black height [n] is put in; then
    its own is [m]. *)
Fixpoint okc (k : ctx) (n m : nat) : Prop :=
  match k with
  | [] => n = m
  | FL c _ t :: k | FR c t _ :: k =>
    redblack t n /\ (c = RED -> isb t = true /\ accepts k = true) /\ okc k (if c then S n else n) m
  end.

Lemma rb_node c l x rt n : redblack l n -> redblack rt n -> (c = RED -> isb l = true /\ isb rt = true) ->
  redblack (N c l x rt) (if c then S n else n).
Proof. destruct c; intros L R B; [apply RB_black|apply RB_red]; auto; destruct (B eq_refl); auto. Qed.

Lemma rb_inv c l x rt n' : redblack (N c l x rt) n' ->
  exists n, redblack l n /\ redblack rt n /\ (c = RED -> isb l = true /\ isb rt = true) /\ n' = (if c then S n else n).
Proof. intros H. inversion H; subst; eexists; split; eauto; split; eauto; split; auto; discriminate. Qed.

Lemma plug_rb k : forall t n m, okc k n m -> redblack t n -> isb t = true \/ accepts k = true ->
  redblack (plug k t) m /\ isb (plug k t) = true.
Proof.
  induction k as [|[c x rt|c l x] k IH]; intros t n m O T A; cbn [plug okc accepts] in *.
  - subst m. destruct A as [A|A]; [auto|discriminate].
  - destruct O as (R & B & K). apply (IH _ _ _ K).
    + apply rb_node; auto. intros ->. split; [|apply B; reflexivity]. destruct A as [A|A]; [exact A|discriminate].
    + destruct c; cbn [isb]; [left; reflexivity|right; apply B; reflexivity].
  - destruct O as (R & B & K). apply (IH _ _ _ K).
    + apply rb_node; auto. intros ->. split; [apply B; reflexivity|]. destruct A as [A|A]; [exact A|discriminate].
    + destruct c; cbn [isb]; [left; reflexivity|right; apply B; reflexivity].
Qed.

Lemma unplug_rb k : forall t m, redblack (plug k t) m -> isb (plug k t) = true ->
  exists n, redblack t n /\ okc k n m /\ (isb t = true \/ accepts k = true).
Proof.
  induction k as [|[c x rt|c l x] k IH]; intros t m H B; cbn [plug okc accepts] in *.
  - exists m. auto.
  - destruct (IH _ _ H B) as (n' & T & K & A). apply rb_inv in T as (n & L & R & C & ->). exists n.
    split; [exact L|]. split; [split; [exact R|split; [|exact K]]|].
    + intros ->. destruct (C eq_refl). split; [assumption|]. destruct A as [A|A]; [discriminate|exact A].
    + destruct c; [auto|]. left. apply C. reflexivity.
  - destruct (IH _ _ H B) as (n' & T & K & A). apply rb_inv in T as (n & L & R & C & ->). exists n.
    split; [exact R|]. split; [split; [exact L|split; [|exact K]]|].
    + intros ->. destruct (C eq_refl). split; [assumption|]. destruct A as [A|A]; [discriminate|exact A].
    + destruct c; [auto|]. left. apply C. reflexivity.
Qed.

(** * Inserting *)

Lemma finish_ok s r t c : whole s r [] t -> t <> E ->
  morph s (let* p := load_root s r in set_color s p c) r t match t with E => E | N _ l x rt => N c l x rt end.
Proof.
  intros W NE. destruct (root_at _ _ _ W) as (R & T). rewrite (load_eq _ _ R), T. cbn [bind]. destruct t as [|c0 l x rt]; [contradiction|].
  exact (color_m s r [] c0 l x rt c W).
Qed.

Lemma plug_not_E k : forall t, t <> E -> plug k t <> E.
Proof. induction k as [|[] k IH]; intros t H; cbn [plug]; [exact H| |]; apply IH; discriminate. Qed.

Lemma blacken t m : redblack t m -> isb t = true -> match t with E => E | N _ l x rt => N BLACK l x rt end = t.
Proof. destruct t; [reflexivity|]. cbn. intros _ ->. reflexivity. Qed.

Ltac lk H k c l x rt :=
  let X := fresh "X" in let v := fresh "v" in let V := fresh "V" in
  destruct (node_at _ _ k c l x rt H) as (X & v & V);
  rewrite ?(get_eq _ _ _ _ V); cbn [parent left right root color error bind ctop top].

(** An action that leaves a red-black tree with the same nodes. *)
Definition fixes (s : st) (f : option st) (r : Z) (t : tree) : Prop :=
  exists t' m, morph s f r t t' /\ redblack t' m /\ isb t' = true.

Lemma fixes_bind s f g r t t1 : morph s f r t t1 -> (forall s1, whole s1 r [] t1 -> fixes s1 (g s1) r t1) ->
  fixes s (bind f g) r t.
Proof.
  intros (s1 & -> & W1 & I1 & O1) H. destruct (H s1 W1) as (t' & m & (s2 & E2 & W2 & I2 & O2) & RB). exists t', m.
  split; [|exact RB]. exists s2. split; [exact E2|]. split; [exact W2|]. split; [congruence|].
  rewrite I1 in O2. exact (only_trans _ _ _ _ _ O1 O2).
Qed.

Lemma fixes_done s f r k t n m : morph s f r (plug k t) (plug k t) -> redblack t n -> okc k n m ->
  isb t = true \/ accepts k = true -> fixes s f r (plug k t).
Proof. intros M T O A. exists (plug k t), m. split; [exact M|]. exact (plug_rb _ _ _ _ O T A). Qed.

Lemma top_other (t : tree) x K : NoDup K -> (cnt x (inorder t) + 1 <= cnt x K)%nat -> x <> 0 -> top t <> x.
Proof.
  intros ND H X Q. destruct t as [|c l y rt]; cbn in Q; [congruence|]. subst y.
  apply nodup_cnt with (q := x) in ND. cbn [inorder] in H. rewrite count_occ_app, cnt_cons, eq_dec_refl in H. lia.
Qed.

(** The child of a node differs from its other child. *)
Lemma child_other s r k c l x rt y : whole s r [] (plug k (N c l x rt)) -> y <> 0 ->
  (In y (inorder l) -> top rt <> y) /\ (In y (inorder rt) -> top l <> y).
Proof.
  intros W Y. pose proof (nodup_at s r k _ W) as ND. cbn [inorder] in ND.
  split; intros I Q; [destruct rt as [|c1 l1 x1 r1]|destruct l as [|c1 l1 x1 r1]]; cbn in Q; try congruence; subst x1; count y.
Qed.

Lemma in_mid (l rt : list Z) x : In x (l ++ x :: rt).
Proof. apply in_or_app. right. left. reflexivity. Qed.

Lemma insert_fixup_ok fuel : forall k s r l x rt n m, (length k < fuel)%nat ->
  whole s r [] (plug k (N RED l x rt)) -> redblack (N RED l x rt) n -> okc k n m ->
  fixes s (insert_fixup fuel s x r) r (plug k (N RED l x rt)).
Proof.
  induction fuel as [|fuel IH]; intros k s r l x rt n m F W T O; [lia|].
  cbn [insert_fixup]. pose proof W as W0. lk W0 k RED l x rt.
  assert (DONE : k = [] \/ accepts k = true ->
    fixes s (let* p := load_root s r in set_color s p BLACK) r (plug k (N RED l x rt))).
  { intros A. pose proof (finish_ok s r _ BLACK W (plug_not_E k (N RED l x rt) ltac:(discriminate))) as M.
    destruct A as [->|A].
    - cbn [plug] in *. eexists _, (S n). split; [exact M|]. split; [|reflexivity]. inversion T; subst. constructor; assumption.
    - destruct (plug_rb k _ n m O T (or_intror A)) as (P1 & P2). rewrite (blacken _ _ P1 P2) in M. eexists _, m. split; [exact M|]. auto. }
  destruct k as [|f1 k].
  { cbn [ctop]. cbn. apply DONE. auto. }
  assert (P : ctop (f1 :: k) <> 0 /\ get parent s (ctop (f1 :: k)) = Some (ctop k) /\ real_and_red s (ctop (f1 :: k)) = Some (negb (accepts (f1 :: k)))).
  { destruct f1 as [c1 p rp|c1 lp p]; cbn [ctop accepts].
    - destruct (node_at _ _ k c1 (N RED l x rt) p rp W) as (P & vp & VP). split; [exact P|]. rewrite (get_eq _ _ _ _ VP). split; [reflexivity|].
      unfold real_and_red, isleaf, isred. destruct (Z.eqb_spec p 0); [contradiction|]. rewrite (get_eq _ _ _ _ VP). destruct c1; reflexivity.
    - destruct (node_at _ _ k c1 lp p (N RED l x rt) W) as (P & vp & VP). split; [exact P|]. rewrite (get_eq _ _ _ _ VP). split; [reflexivity|].
      unfold real_and_red, isleaf, isred. destruct (Z.eqb_spec p 0); [contradiction|]. rewrite (get_eq _ _ _ _ VP). destruct c1; reflexivity. }
  destruct P as (P0 & P1 & P2). rewrite P2. cbn [bind]. destruct (accepts (f1 :: k)) eqn:A1; cbn [negb].
  { apply DONE; auto. }
  clear DONE P2. rewrite P1. cbn [bind]. clear P1.
  assert (A2 : accepts k = true) by (destruct f1; cbn in A1, O; subst; apply O; reflexivity).
  destruct k as [|f2 k]; [discriminate|].
  cbn [length] in F. apply rb_inv in T as (n' & L & R & B & ->). destruct (B eq_refl) as (BL & BR). clear B.
  destruct f1 as [c1 p rp|c1 lp p]; cbn [accepts] in A1; subst c1; destruct f2 as [c2 g u|c2 u g]; cbn [accepts] in A2; subst c2;
    cbn [plug okc ctop] in *.
  - (* left, left *)
    destruct O as (RP & BP & RU & _ & K). destruct (BP eq_refl) as (BP1 & _). clear BP.
    lk W k BLACK (N RED (N RED l x rt) p rp) g u. rewrite Z.eqb_refl.
    rewrite (red_ok s r g u (subtree_at s r (FR BLACK (N RED (N RED l x rt) p rp) g :: k) u W)). cbn [bind].
    destruct (isb u) eqn:BU; cbn [negb].
    + destruct (node_at _ _ (FL BLACK g u :: k) RED (N RED l x rt) p rp W) as (_ & vp & VP). rewrite (get_eq _ _ _ _ VP). cbn [right bind].
      destruct (Z.eqb_spec (top rp) x) as [Q|_]; [exfalso; refine (proj1 (child_other s r (FL BLACK g u :: k) _ _ _ _ x W X) _ Q); apply in_mid|].
      cbn [bind].
      eapply fixes_bind; [exact (color_m s r (FL BLACK g u :: k) RED _ p rp BLACK W)|intros s1 W1].
      eapply fixes_bind; [exact (color_m s1 r k BLACK _ g u RED W1)|intros s2 W2].
      eapply fixes_bind; [exact (right_m s2 r k RED u g BLACK _ p rp W2)|intros s3 W3].
      apply (IH (FL BLACK p (N RED rp g u) :: k) s3 r l x rt n' m); [cbn; lia|exact W3|apply RB_red; assumption|].
      cbn [okc]. split; [apply RB_red; assumption|]. split; [discriminate|exact K].
    + destruct u as [|cu ul ux ur]; [discriminate|]. cbn in BU. subst cu. cbn [top].
      eapply fixes_bind; [exact (color_m s r (FR BLACK _ g :: k) RED ul ux ur BLACK W)|intros s1 W1].
      eapply fixes_bind; [exact (color_m s1 r (FL BLACK g _ :: k) RED _ p rp BLACK W1)|intros s2 W2].
      eapply fixes_bind; [exact (color_m s2 r k BLACK _ g _ RED W2)|intros s3 W3].
      apply rb_inv in RU as (nu & U1 & U2 & _ & NU). cbn in NU. subst nu.
      apply (IH k s3 r _ g _ (S n') m); [lia|exact W3| |exact K].
      apply RB_red; [apply RB_black; [apply RB_red|]|apply RB_black| |]; auto.
  - (* left, right *)
    destruct O as (RP & BP & RU & _ & K). destruct (BP eq_refl) as (BP1 & _). clear BP.
    lk W k BLACK u g (N RED (N RED l x rt) p rp). rewrite Z.eqb_refl.
    destruct (Z.eqb_spec p (top u)) as [Q|_]; [exfalso; refine (proj2 (child_other s r k _ _ _ _ p W P0) _ (eq_sym Q)); apply in_mid|].
    rewrite (red_ok s r g u (subtree_at s r (FL BLACK g (N RED (N RED l x rt) p rp) :: k) u W)). cbn [bind].
    destruct (isb u) eqn:BU; cbn [negb].
    + destruct (node_at _ _ (FR BLACK u g :: k) RED (N RED l x rt) p rp W) as (_ & vp & VP). rewrite (get_eq _ _ _ _ VP). cbn [left bind top].
      rewrite Z.eqb_refl. rewrite bind_assoc.
      eapply fixes_bind; [exact (right_m s r (FR BLACK u g :: k) RED rp p RED l x rt W)|intros s0 W1]. cbn [bind].
      eapply fixes_bind; [exact (color_m s0 r (FR BLACK u g :: k) RED l x _ BLACK W1)|intros s1 W2].
      eapply fixes_bind; [exact (color_m s1 r k BLACK u g _ RED W2)|intros s2 W3].
      eapply fixes_bind; [exact (left_m s2 r k RED u g BLACK l x _ W3)|intros s3 W4].
      apply (IH (FR BLACK (N RED u g l) x :: k) s3 r rt p rp n' m); [cbn; lia|exact W4|apply RB_red; assumption|].
      cbn [okc]. split; [apply RB_red; assumption|]. split; [discriminate|exact K].
    + destruct u as [|cu ul ux ur]; [discriminate|]. cbn in BU. subst cu. cbn [top].
      eapply fixes_bind; [exact (color_m s r (FL BLACK g _ :: k) RED ul ux ur BLACK W)|intros s1 W1].
      eapply fixes_bind; [exact (color_m s1 r (FR BLACK _ g :: k) RED _ p rp BLACK W1)|intros s2 W2].
      eapply fixes_bind; [exact (color_m s2 r k BLACK _ g _ RED W2)|intros s3 W3].
      apply rb_inv in RU as (nu & U1 & U2 & _ & NU). cbn in NU. subst nu.
      apply (IH k s3 r _ g _ (S n') m); [lia|exact W3| |exact K].
      apply RB_red; [apply RB_black|apply RB_black; [apply RB_red|]| |]; auto.
  - (* right, left *)
    destruct O as (RP & BP & RU & _ & K). destruct (BP eq_refl) as (BP1 & _). clear BP.
    lk W k BLACK (N RED lp p (N RED l x rt)) g u. rewrite Z.eqb_refl.
    rewrite (red_ok s r g u (subtree_at s r (FR BLACK (N RED lp p (N RED l x rt)) g :: k) u W)). cbn [bind].
    destruct (isb u) eqn:BU; cbn [negb].
    + destruct (node_at _ _ (FL BLACK g u :: k) RED lp p (N RED l x rt) W) as (_ & vp & VP). rewrite (get_eq _ _ _ _ VP). cbn [right bind top].
      rewrite Z.eqb_refl. rewrite bind_assoc.
      eapply fixes_bind; [exact (left_m s r (FL BLACK g u :: k) RED lp p RED l x rt W)|intros s0 W1]. cbn [bind].
      eapply fixes_bind; [exact (color_m s0 r (FL BLACK g u :: k) RED _ x rt BLACK W1)|intros s1 W2].
      eapply fixes_bind; [exact (color_m s1 r k BLACK _ g u RED W2)|intros s2 W3].
      eapply fixes_bind; [exact (right_m s2 r k RED u g BLACK _ x rt W3)|intros s3 W4].
      apply (IH (FL BLACK x (N RED rt g u) :: k) s3 r lp p l n' m); [cbn; lia|exact W4|apply RB_red; assumption|].
      cbn [okc]. split; [apply RB_red; assumption|]. split; [discriminate|exact K].
    + destruct u as [|cu ul ux ur]; [discriminate|]. cbn in BU. subst cu. cbn [top].
      eapply fixes_bind; [exact (color_m s r (FR BLACK _ g :: k) RED ul ux ur BLACK W)|intros s1 W1].
      eapply fixes_bind; [exact (color_m s1 r (FL BLACK g _ :: k) RED lp p _ BLACK W1)|intros s2 W2].
      eapply fixes_bind; [exact (color_m s2 r k BLACK _ g _ RED W2)|intros s3 W3].
      apply rb_inv in RU as (nu & U1 & U2 & _ & NU). cbn in NU. subst nu.
      apply (IH k s3 r _ g _ (S n') m); [lia|exact W3| |exact K].
      apply RB_red; [apply RB_black; [|apply RB_red]|apply RB_black| |]; auto.
  - (* right, right *)
    destruct O as (RP & BP & RU & _ & K). destruct (BP eq_refl) as (BP1 & _). clear BP.
    lk W k BLACK u g (N RED lp p (N RED l x rt)). rewrite Z.eqb_refl.
    destruct (Z.eqb_spec p (top u)) as [Q|_]; [exfalso; refine (proj2 (child_other s r k _ _ _ _ p W P0) _ (eq_sym Q)); apply in_mid|].
    rewrite (red_ok s r g u (subtree_at s r (FL BLACK g (N RED lp p (N RED l x rt)) :: k) u W)). cbn [bind].
    destruct (isb u) eqn:BU; cbn [negb].
    + destruct (node_at _ _ (FR BLACK u g :: k) RED lp p (N RED l x rt) W) as (_ & vp & VP). rewrite (get_eq _ _ _ _ VP). cbn [left bind].
      destruct (Z.eqb_spec (top lp) x) as [Q|_]; [exfalso; refine (proj2 (child_other s r (FR BLACK u g :: k) _ _ _ _ x W X) _ Q); apply in_mid|].
      cbn [bind].
      eapply fixes_bind; [exact (color_m s r (FR BLACK u g :: k) RED lp p _ BLACK W)|intros s1 W1].
      eapply fixes_bind; [exact (color_m s1 r k BLACK u g _ RED W1)|intros s2 W2].
      eapply fixes_bind; [exact (left_m s2 r k RED u g BLACK lp p _ W2)|intros s3 W3].
      apply (IH (FR BLACK (N RED u g lp) p :: k) s3 r l x rt n' m); [cbn; lia|exact W3|apply RB_red; assumption|].
      cbn [okc]. split; [apply RB_red; assumption|]. split; [discriminate|exact K].
    + destruct u as [|cu ul ux ur]; [discriminate|]. cbn in BU. subst cu. cbn [top].
      eapply fixes_bind; [exact (color_m s r (FL BLACK g _ :: k) RED ul ux ur BLACK W)|intros s1 W1].
      eapply fixes_bind; [exact (color_m s1 r (FR BLACK _ g :: k) RED lp p _ BLACK W1)|intros s2 W2].
      eapply fixes_bind; [exact (color_m s2 r k BLACK _ g _ RED W2)|intros s3 W3].
      apply rb_inv in RU as (nu & U1 & U2 & _ & NU). cbn in NU. subst nu.
      apply (IH k s3 r _ g _ (S n') m); [lia|exact W3| |exact K].
      apply RB_red; [apply RB_black|apply RB_black; [|apply RB_red]| |]; auto.
Qed.
