(** Proofs about the red-black trees: inserting, replacing and removing one node. *)

From Coq Require Import ZArith List Bool Lia Sorting.Permutation.
From Verif Require Import CUtil TreeModel TreeSpec TreeProofs TreeProofs2 TreeProofs3.
Import ListNotations.
Local Open Scope Z_scope.

(** * Finding places *)

Lemma locate t : forall x, In x (inorder t) -> exists k c l rt, t = plug k (N c l x rt).
Proof.
  induction t as [|c l IHl y rt IHr]; intros x I; [destruct I|]. cbn in I. apply in_app_or in I as [I|[<-|I]].
  - destruct (IHl _ I) as (k & c' & l' & r' & ->). exists (k ++ [FL c y rt]), c', l', r'.
    clear. generalize (N c' l' x r'). induction k as [|[] k IH]; intros t; cbn; [reflexivity| |]; apply IH.
  - exists [], c, l, rt. reflexivity.
  - destruct (IHr _ I) as (k & c' & l' & r' & ->). exists (k ++ [FR c l y]), c', l', r'.
    clear. generalize (N c' l' x r'). induction k as [|[] k IH]; intros t; cbn; [reflexivity| |]; apply IH.
Qed.

Lemma plug_app k1 : forall k2 t, plug (k1 ++ k2) t = plug k2 (plug k1 t).
Proof. induction k1 as [|[] k1 IH]; intros k2 t; cbn; [reflexivity| |]; apply IH. Qed.

Lemma depth_plug k : forall t, (length k + depth t <= depth (plug k t))%nat.
Proof.
  induction k as [|[c x rt|c l x] k IH]; intros t; cbn [length plug]; [lia| |].
  - specialize (IH (N c t x rt)). cbn [depth] in IH. lia.
  - specialize (IH (N c l x t)). cbn [depth] in IH. lia.
Qed.

Lemma tree_node s r par t x : tree_at s r par t -> In x (inorder t) ->
  exists n, nodes s x = Some n /\ root n = r /\ error n = false.
Proof.
  revert par. induction t as [|c l IHl y rt IHr]; intros par; [intros _ []|]. cbn. intros (Y & (v & V) & L & R) I.
  apply in_app_or in I as [I|[<-|I]]; [exact (IHl _ L I)| |exact (IHr _ R I)]. eexists. split; [exact V|]. auto.
Qed.

(** * Inserting a node in an empty place *)

Lemma graft s r k x nx (f : st -> option st) : whole s r k E -> nodes s x = Some nx -> x <> 0 -> error nx = false ->
  ~ In x (cptrs k) ->
  (forall s0, ctx_at s0 r 0 k -> NoDup (cptrs k) -> relinks f s0 r 0 x k) ->
  exists s1, (let* s := change (fun n => Node (ctop k) 0 0 r RED (error n) (pay n)) s x in f s) = Some s1 /\
    whole s1 r k (N RED E x E) /\ only (x :: cptrs k) r s s1.
Proof.
  intros [_ C ND] V X EX NI R. cbn [inorder app top] in *. rewrite (change_eq _ _ _ _ V). cbn [bind]. set (s0 := put s x _).
  assert (C0 : ctx_at s0 r 0 k) by (apply (ctx_agree s); [|reflexivity|exact C]; intros q Q; apply put_other; intros ->; contradiction).
  destruct (R s0 C0 ND) as (s1 & E1 & C1 & F1 & _ & O1). exists s1. split; [exact E1|]. split; [constructor|].
  - cbn [tree_at top]. split; [exact X|]. split; [|auto]. exists (pay nx). rewrite F1.
    + unfold s0. rewrite put_same, EX. reflexivity.
    + destruct k as [|fr k]; [auto|]. left. intros ->. apply NI. apply in_cnt, ctop_cnt; [reflexivity|discriminate].
  - exact C1.
  - cbn [inorder app]. constructor; assumption.
  - apply (only_trans _ _ _ s0); [eapply only_put; [exact V|reflexivity|left; reflexivity]|].
    apply O1. intros NE. right. apply in_cnt, ctop_cnt; auto.
Qed.

Lemma link_left_ok s r k c q rt x nx : whole s r [] (plug k (N c E q rt)) -> nodes s x = Some nx -> x <> 0 -> error nx = false ->
  ~ In x (inorder (plug k (N c E q rt))) ->
  exists s1, link_together s x q r (Left q) = Some s1 /\ whole s1 r [] (plug k (N c (N RED E x E) q rt)) /\
    only (x :: inorder (plug k (N c E q rt))) r s s1.
Proof.
  intros W V X EX NI. change (plug k (N c E q rt)) with (plug (FL c q rt :: k) E) in *.
  apply (proj2 (whole_plug s r _ _)) in W.
  edestruct (graft s r (FL c q rt :: k) x nx (fun s => set_left s q x) W V X EX) as (s1 & E1 & W1 & O1).
  { intros I. apply NI. apply in_plug, in_ptrs. auto. }
  { intros s0 C0 ND. apply relink_left; assumption. }
  exists s1. split; [exact E1|]. split; [exact (proj1 (whole_plug s1 r _ _) W1)|].
  eapply only_sub; [|exact O1]. intros z [->|Z]; [left; reflexivity|right]. apply in_plug, in_ptrs. auto.
Qed.

Lemma link_right_ok s r k c l q x nx : whole s r [] (plug k (N c l q E)) -> nodes s x = Some nx -> x <> 0 -> error nx = false ->
  ~ In x (inorder (plug k (N c l q E))) ->
  exists s1, link_together s x q r (Right q) = Some s1 /\ whole s1 r [] (plug k (N c l q (N RED E x E))) /\
    only (x :: inorder (plug k (N c l q E))) r s s1.
Proof.
  intros W V X EX NI. change (plug k (N c l q E)) with (plug (FR c l q :: k) E) in *.
  apply (proj2 (whole_plug s r _ _)) in W.
  edestruct (graft s r (FR c l q :: k) x nx (fun s => set_right s q x) W V X EX) as (s1 & E1 & W1 & O1).
  { intros I. apply NI. apply in_plug, in_ptrs. auto. }
  { intros s0 C0 ND. apply relink_right; assumption. }
  exists s1. split; [exact E1|]. split; [exact (proj1 (whole_plug s1 r _ _) W1)|].
  eapply only_sub; [|exact O1]. intros z [->|Z]; [left; reflexivity|right]. apply in_plug, in_ptrs. auto.
Qed.

Lemma link_root_ok s r x nx : whole s r [] E -> nodes s x = Some nx -> x <> 0 -> error nx = false ->
  exists s1, link_together s x 0 r (Root r) = Some s1 /\ whole s1 r [] (N RED E x E) /\ only [x] r s s1.
Proof.
  intros W V X EX.
  destruct (graft s r [] x nx (fun s => store_root s r x) W V X EX) as (s1 & E1 & W1 & O1); [intros []| |].
  { intros s0 C0 ND. apply relink_root; assumption. }
  exists s1. auto.
Qed.

(** * Putting a node in the place of another *)

Lemma swap_ctx s r k c l x rt y : whole s r k (N c l x rt) -> y <> 0 -> ~ In y (ptrs k (N c l x rt)) ->
  NoDup (inorder (N c l y rt) ++ cptrs k).
Proof.
  intros [_ _ ND] Y NI. apply nodup_cnt. intros q. apply nodup_cnt with (q := q) in ND.
  unfold ptrs in NI. apply not_in_cnt in NI. cbn [inorder] in *.
  repeat first [rewrite count_occ_app in * | rewrite cnt_cons in *]. destruct (Z.eq_dec y q) as [<-|]; lia.
Qed.

Lemma replace_ok s r k c l x rt y ny : whole s r k (N c l x rt) -> nodes s y = Some ny -> y <> 0 -> root ny = 0 -> error ny = false ->
  exists s', replace s x y = Some (s', x) /\ whole s' r k (N c l y rt) /\ only (x :: y :: ptrs k (N c l x rt)) r s s' /\
    (exists v, nodes s' x = Some (Node 0 0 0 0 RED false v)).
Proof.
  intros W VY Y RY EY. pose proof W as W0. destruct W as [(X & (v & V) & L & R) C ND].
  assert (RZ : r <> 0). { clear - C. revert C. generalize (top (N c l x rt)). induction k as [|[] k IH]; intros p; cbn; [tauto| |]; intros (_ & _ & _ & H); eauto. }
  assert (NI : ~ In y (ptrs k (N c l x rt))).
  { intros I. apply in_plug in I. destruct (tree_node s r 0 (plug k (N c l x rt)) y) as (n & N1 & N2 & _); [|exact I|congruence].
    apply (proj1 (whole_plug s r k _)) in W0. apply W0. }
  assert (ND' := swap_ctx s r k c l x rt y W0 Y NI). rewrite in_ptrs in NI. cbn [inorder] in NI. rewrite in_app_iff in NI. cbn [In] in NI.
  assert (XY : x <> y) by (intros <-; tauto).
  assert (NL : NoDup (inorder l)).
  { apply nodup_cnt. intros q. apply nodup_cnt with (q := q) in ND. cbn [inorder] in ND. repeat first [rewrite count_occ_app in ND | rewrite cnt_cons in ND]. lia. }
  assert (NR : NoDup (inorder rt)).
  { apply nodup_cnt. intros q. apply nodup_cnt with (q := q) in ND. cbn [inorder] in ND. repeat first [rewrite count_occ_app in ND | rewrite cnt_cons in ND]. lia. }
  assert (NK : NoDup (cptrs k)).
  { apply nodup_cnt. intros q. apply nodup_cnt with (q := q) in ND. rewrite count_occ_app in ND. lia. }
  assert (XK : ~ In x (cptrs k)) by (intros I; count x).
  unfold replace, isorphan. rewrite !(get_eq _ _ _ _ V), !(get_eq _ _ _ _ VY), RY. cbn [bind root parent].
  destruct (Z.eqb_spec r 0); [contradiction|]. cbn [Z.eqb negb].
  destruct (link_ok s r x k y x C NK X XK) as ((s1 & E1 & C1 & F1 & R1 & O1) & _).
  unfold link_lr in E1. rewrite E1. cbn [bind]. clear E1.
  assert (TK : forall q, In q (inorder (N c l x rt)) \/ q = y -> q <> ctop k \/ k = []).
  { intros q Q. destruct k as [|fr k]; [auto|]. left. intros ->. pose proof (ctop_cnt (fr :: k) _ eq_refl ltac:(discriminate)) as H.
    destruct Q as [Q|Q]; [count (ctop (fr :: k))|]. rewrite Q in H. apply in_cnt in H. tauto. }
  assert (V1 : nodes s1 x = Some (Node (ctop k) (top l) (top rt) r c false v)) by (rewrite F1; [exact V|apply TK; left; apply in_mid]).
  rewrite (get_eq _ _ _ _ V1). cbn [left bind].
  assert (L1 : tree_at s1 r x l).
  { apply (tree_agree s); [|exact L]. intros q Q. apply F1, TK. left. cbn. apply in_or_app. auto. }
  assert (T1 : tree_at s1 r x rt).
  { apply (tree_agree s); [|exact R]. intros q Q. apply F1, TK. left. cbn. apply in_or_app. cbn. auto. }
  destruct (reparent s1 r x l y L1 NL) as (s2 & E2 & L2 & F2 & R2 & O2). rewrite E2. cbn [bind]. clear E2.
  assert (N2 : forall q, q = x \/ q = y \/ In q (inorder rt) \/ In q (cptrs k) -> nodes s2 q = nodes s1 q).
  { intros q Q. apply F2. destruct l as [|lc ll lx lr]; [auto|]. left. cbn [top]. intros ->.
    pose proof (in_mid (inorder ll) (inorder lr) lx) as I. destruct Q as [->|[->|[Q|Q]]]; [count x|tauto|count lx|count lx]. }
  assert (V2 : nodes s2 x = Some (Node (ctop k) (top l) (top rt) r c false v)) by (rewrite N2 by auto; exact V1).
  rewrite (get_eq _ _ _ _ V2). cbn [right bind].
  assert (T2 : tree_at s2 r x rt) by (apply (tree_agree s1); [|exact T1]; intros q Q; apply N2; auto).
  destruct (reparent s2 r x rt y T2 NR) as (s3 & E3 & T3 & F3 & R3 & O3). rewrite E3. cbn [bind]. clear E3.
  assert (N3 : forall q, q = x \/ q = y \/ In q (inorder l) \/ In q (cptrs k) -> nodes s3 q = nodes s2 q).
  { intros q Q. apply F3. destruct rt as [|lc ll lx lr]; [auto|]. left. cbn [top]. intros ->.
    pose proof (in_mid (inorder ll) (inorder lr) lx) as I. destruct Q as [->|[->|[Q|Q]]]; [count x|tauto|count lx|count lx]. }
  assert (V3 : nodes s3 x = Some (Node (ctop k) (top l) (top rt) r c false v)) by (rewrite N3 by auto; exact V2).
  rewrite V3. cbn [bind].
  assert (Y3 : nodes s3 y = Some ny) by (rewrite N3, N2, F1 by auto; exact VY).
  rewrite (change_eq _ _ _ _ Y3). cbn [bind]. set (s4 := put s3 y _).
  assert (V4 : nodes s4 x = Some (Node (ctop k) (top l) (top rt) r c false v)) by (unfold s4; rewrite put_other by exact XY; exact V3).
  unfold init. rewrite (change_eq _ _ _ _ V4). cbn [bind]. eexists. split; [reflexivity|].
  assert (N5 : forall q, q <> x -> q <> y -> nodes (put s4 x (Node 0 0 0 0 RED false v)) q = nodes s3 q).
  { intros q Q1 Q2. rewrite put_other by exact Q1. unfold s4. apply put_other, Q2. }
  split; [constructor|split].
  - cbn [tree_at]. split; [exact Y|]. split; [exists (pay ny); rewrite put_other by congruence; unfold s4; rewrite put_same, EY; reflexivity|].
    split; [apply (tree_agree s2); [|exact L2]|apply (tree_agree s3); [|exact T3]]; intros q Q.
    + rewrite N5; [apply N3; auto|intros ->; count x|intros ->; tauto].
    + apply N5; [intros ->; count x|intros ->; tauto].
  - cbn [top]. apply (ctx_agree s1); [| |exact C1].
    + intros q Q. rewrite N5; [rewrite N3, N2 by auto; reflexivity|intros ->; contradiction|intros ->; tauto].
    + cbn. rewrite R3, R2. reflexivity.
  - exact ND'.
  - set (LL := x :: y :: ptrs k (N c l x rt)).
    assert (IL : forall q, In q (inorder l) -> In q LL) by (intros q Q; right; right; apply in_ptrs; left; cbn; apply in_or_app; auto).
    assert (IR : forall q, In q (inorder rt) -> In q LL) by (intros q Q; right; right; apply in_ptrs; left; cbn; apply in_or_app; cbn; auto).
    assert (IK : forall q, In q (cptrs k) -> In q LL) by (intros q Q; right; right; apply in_ptrs; auto).
    apply (only_trans _ _ _ s1); [apply O1; intros NE; apply IK, in_cnt, ctop_cnt; auto|].
    apply (only_trans _ _ _ s2); [apply O2; intros NE; apply IL, in_cnt, top_cnt; auto|].
    apply (only_trans _ _ _ s3); [apply O3; intros NE; apply IR, in_cnt, top_cnt; auto|].
    apply (only_trans _ _ _ s4); [eapply only_put; [exact Y3|reflexivity|right; left; reflexivity]|].
    eapply only_put; [exact V4|reflexivity|left; reflexivity].
  - exists v. rewrite put_same. reflexivity.
Qed.
