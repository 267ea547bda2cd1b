(** Proofs about the red-black trees: taking a node out, and removing it. *)

From Coq Require Import ZArith List Bool Lia Sorting.Permutation.
From Verif Require Import CUtil TreeModel TreeSpec TreeProofs TreeProofs2 TreeProofs3 TreeProofs4.
Import ListNotations.
Local Open Scope Z_scope.

Definition link_out (nodep : Z) (parentp rootp newp : Z) (err : Z) (s : st) : option st :=
  if isleaf parentp then store_root s rootp newp
  else let* pl := get left s parentp in
    if pl =? nodep then set_left s parentp newp
    else let* pr := get right s parentp in
      if pr =? nodep then set_right s parentp newp else set_error s err.

Lemma link_out_ok s r p k q err : ctx_at s r p k -> NoDup (cptrs k) -> p <> 0 -> ~ In p (cptrs k) ->
  relinks (link_out p (ctop k) r q err) s r p q k.
Proof.
  intros C ND P NI. pose proof (ctx_child s r p k C ND P NI) as H. unfold relinks, link_out, isleaf.
  destruct k as [|[c x rt|c lt x] k]; cbn [ctop].
  - cbn [Z.eqb]. exact (relink_root s r p C q).
  - destruct H as (H1 & H2 & H3 & H4). destruct (Z.eqb_spec x 0); [contradiction|]. rewrite H1, H2. cbn [bind].
    rewrite Z.eqb_refl. exact (relink_left s r p k c x rt C ND q).
  - destruct H as (H1 & H2 & H3 & H4). destruct (Z.eqb_spec x 0); [contradiction|]. rewrite H1, H2. cbn [bind].
    rewrite Z.eqb_refl. destruct (Z.eqb_spec (top lt) p); [congruence|]. exact (relink_right s r p k c x lt C ND q).
Qed.

(** A node with at most one child: the child takes its place. *)
Lemma splice s r k c l x rt t (f : st -> option st) : l = E /\ t = rt \/ rt = E /\ t = l -> whole s r k (N c l x rt) ->
  (forall s0, ctx_at s0 r x k -> NoDup (cptrs k) -> x <> 0 -> ~ In x (cptrs k) -> relinks f s0 r x (top t) k) ->
  exists s1 s2, (if negb (isleaf (top t)) then set_parent s (top t) (ctop k) else Some s) = Some s1 /\ f s1 = Some s2 /\
    whole s2 r k t /\ only (ptrs k t) r s s2 /\ nodes s2 x = nodes s x.
Proof.
  intros LR [(X & (v & V) & L & R) C ND] FR.
  assert (T : tree_at s r x t) by (destruct LR as [(_ & ->)|(_ & ->)]; assumption).
  assert (ND' : NoDup (x :: inorder t ++ cptrs k)).
  { destruct LR as [(-> & ->)|(-> & ->)]; cbn [inorder app] in ND; [exact ND|].
    apply nodup_cnt. intros q. apply nodup_cnt with (q := q) in ND. repeat first [rewrite count_occ_app in * | rewrite cnt_cons in *]. cbn [count_occ] in ND. lia. }
  clear ND. assert (NT : NoDup (inorder t)).
  { apply nodup_cnt. intros q. apply nodup_cnt with (q := q) in ND'. rewrite cnt_cons, count_occ_app in ND'. lia. }
  assert (NK : NoDup (cptrs k)).
  { apply nodup_cnt. intros q. apply nodup_cnt with (q := q) in ND'. rewrite cnt_cons, count_occ_app in ND'. lia. }
  assert (XK : ~ In x (cptrs k)) by (intros I; count x).
  assert (XT : ~ In x (inorder t)) by (intros I; count x).
  destruct (reparent s r x t (ctop k) T NT) as (s1 & E1 & T1 & F1 & R1 & O1). exists s1.
  assert (N1 : forall q, q = x \/ In q (cptrs k) -> nodes s1 q = nodes s q).
  { intros q Q. apply F1. destruct t as [|tc tl tx tr]; [auto|]. left. cbn [top]. intros ->.
    pose proof (in_mid (inorder tl) (inorder tr) tx) as I. destruct Q as [->|Q]; [contradiction|]. count tx. }
  assert (C1 : ctx_at s1 r x k) by (apply (ctx_agree s); [|rewrite R1; reflexivity|exact C]; intros q Q; apply N1; auto).
  destruct (FR s1 C1 NK X XK) as (s2 & E2 & C2 & F2 & R2 & O2). exists s2. split; [exact E1|]. split; [exact E2|].
  assert (N2 : forall q, q = x \/ In q (inorder t) -> nodes s2 q = nodes s1 q).
  { intros q Q. apply F2. destruct k as [|fr k]; [auto|]. left. intros ->.
    pose proof (ctop_cnt (fr :: k) _ eq_refl ltac:(discriminate)) as H. destruct Q as [Q|Q]; [rewrite Q in H; apply in_cnt in H; contradiction|].
    count (ctop (fr :: k)). }
  split; [constructor|split].
  - apply (tree_agree s1); [|exact T1]. intros q Q. apply N2. auto.
  - exact C2.
  - inversion ND'. assumption.
  - apply (only_trans _ _ _ s1).
    + apply O1. intros NE. apply in_ptrs. left. apply in_cnt, top_cnt; auto.
    + apply O2. intros NE. apply in_ptrs. right. apply in_cnt, ctop_cnt; auto.
  - rewrite N2, N1 by auto. reflexivity.
Qed.

(** The leftmost node of a tree. *)
Definition goes_left (k : ctx) : Prop := Forall (fun f => match f with FL _ _ _ => True | _ => False end) k.
Definition goes_right (k : ctx) : Prop := Forall (fun f => match f with FR _ _ _ => True | _ => False end) k.

Lemma leftmost_ok fuel : forall t s r par, (depth t <= fuel)%nat -> t <> E -> tree_at s r par t ->
  exists k c m rr, leftmost fuel s (top t) = Some m /\ t = plug k (N c E m rr) /\ goes_left k.
Proof.
  induction fuel as [|fuel IH]; intros t s r par F NE T; (destruct t as [|c l x rt]; [contradiction|]); cbn [depth] in F; [lia|].
  cbn [leftmost top]. destruct T as (X & (v & V) & L & R). rewrite (get_eq _ _ _ _ V). cbn [bind left].
  destruct l as [|lc ll lx lr].
  - cbn [top isleaf]. exists [], c, x, rt. split; [reflexivity|]. split; [reflexivity|constructor].
  - destruct (IH (N lc ll lx lr) s r x) as (k & c1 & m & rr & E1 & E2 & G); [lia|discriminate|exact L|].
    cbn [top] in *. unfold isleaf. destruct (Z.eqb_spec lx 0); [destruct L; contradiction|].
    exists (k ++ [FL c x rt]), c1, m, rr. split; [exact E1|]. split; [rewrite plug_app, <- E2; reflexivity|].
    apply Forall_app. split; [exact G|repeat constructor].
Qed.
Lemma rightmost_ok fuel : forall t s r par, (depth t <= fuel)%nat -> t <> E -> tree_at s r par t ->
  exists k c m ll, rightmost fuel s (top t) = Some m /\ t = plug k (N c ll m E) /\ goes_right k.
Proof.
  induction fuel as [|fuel IH]; intros t s r par F NE T; (destruct t as [|c l x rt]; [contradiction|]); cbn [depth] in F; [lia|].
  cbn [rightmost top]. destruct T as (X & (v & V) & L & R). rewrite (get_eq _ _ _ _ V). cbn [bind right].
  destruct rt as [|lc ll lx lr].
  - cbn [top isleaf]. exists [], c, x, l. split; [reflexivity|]. split; [reflexivity|constructor].
  - destruct (IH (N lc ll lx lr) s r x) as (k & c1 & m & rr & E1 & E2 & G); [lia|discriminate|exact R|].
    cbn [top] in *. unfold isleaf. destruct (Z.eqb_spec lx 0); [destruct R; contradiction|].
    exists (k ++ [FR c l x]), c1, m, rr. split; [exact E1|]. split; [rewrite plug_app, <- E2; reflexivity|].
    apply Forall_app. split; [exact G|repeat constructor].
Qed.
Lemma pre_left k : goes_left k -> pre k = [].
Proof. induction 1 as [|[] k H _ IH]; cbn; [reflexivity|exact IH|destruct H]. Qed.
Lemma post_right k : goes_right k -> post k = [].
Proof. induction 1 as [|[] k H _ IH]; cbn; [reflexivity|destruct H|exact IH]. Qed.

Lemma pre_app k1 k2 : pre (k1 ++ k2) = pre k2 ++ pre k1.
Proof. induction k1 as [|[] k1 IH]; cbn; [rewrite app_nil_r; reflexivity|exact IH|rewrite IH, !app_assoc; reflexivity]. Qed.
Lemma post_app k1 k2 : post (k1 ++ k2) = post k1 ++ post k2.
Proof. induction k1 as [|[] k1 IH]; cbn; [reflexivity|rewrite IH, <- app_assoc; reflexivity|exact IH]. Qed.

Lemma okc_swap k1 c l x y k : forall n m, okc (k1 ++ FR c l x :: k) n m -> okc (k1 ++ FR c l y :: k) n m.
Proof.
  induction k1 as [|f k1 IH]; intros n m; [exact id|].
  assert (A : accepts (k1 ++ FR c l x :: k) = accepts (k1 ++ FR c l y :: k)) by (destruct k1 as [|[]]; reflexivity).
  destruct f; cbn [app okc]; rewrite A; intros (H1 & H2 & H3); auto.
Qed.
Lemma accepts_swap k1 c l x y k : accepts (k1 ++ FR c l x :: k) = accepts (k1 ++ FR c l y :: k).
Proof. destruct k1 as [|[]]; reflexivity. Qed.

(** What taking a node out leaves. *)
Definition taken (s : st) (r x : Z) (T : tree) (a b : list Z) (res : option (st * Z * Z * bool)) : Prop :=
  exists s' k' t' col, res = Some (s', top t', ctop k', col) /\ whole s' r [] (plug k' t') /\
    only (inorder T) r s s' /\ isnode s' x /\ inorder (plug k' t') = a ++ b /\ (length k' <= depth T)%nat /\
    (forall m, redblack T m -> isb T = true ->
       exists n, redblack t' n /\ okc k' (if col then S n else n) m /\ (col = RED -> isb t' = true \/ accepts k' = true)).

Lemma out_one s r k c l x rt t : l = E /\ t = rt \/ rt = E /\ t = l -> whole s r [] (plug k (N c l x rt)) ->
  taken s r x (plug k (N c l x rt)) (pre k ++ inorder l) (inorder rt ++ post k)
    (let* s := if negb (isleaf (top t)) then set_parent s (top t) (ctop k) else Some s in
     let* s := link_out x (ctop k) r (top t) x s in Some (s, top t, ctop k, c)).
Proof.
  intros LR W. pose proof W as W0. apply (proj2 (whole_plug s r k _)) in W.
  destruct (splice s r k c l x rt t (link_out x (ctop k) r (top t) x) LR W) as (s1 & s2 & E1 & E2 & W2 & O2 & X2).
  { intros s0 C ND X XK. apply link_out_ok; assumption. }
  rewrite E1. cbn [bind]. rewrite E2. cbn [bind]. exists s2, k, t, c. split; [reflexivity|].
  split; [exact (proj1 (whole_plug s2 r k t) W2)|]. split; [|split; [|split; [|split]]].
  - eapply only_sub; [|exact O2]. intros q Q. apply in_plug. rewrite in_ptrs in *. destruct Q as [Q|Q]; [|auto]. left. cbn.
    apply in_or_app. cbn. destruct LR as [(_ & ->)|(_ & ->)]; auto.
  - unfold isnode. rewrite X2. destruct (node_at _ _ k c l x rt W0) as (_ & v & ->). discriminate.
  - rewrite inorder_plug. destruct LR as [(-> & ->)|(-> & ->)]; cbn; rewrite ?app_nil_r, <- ?app_assoc; reflexivity.
  - pose proof (depth_plug k (N c l x rt)). lia.
  - intros m RB B. destruct (unplug_rb k _ m RB B) as (n' & T & K & A). apply rb_inv in T as (n & L & R & BC & ->). exists n.
    split; [destruct LR as [(_ & ->)|(_ & ->)]; assumption|]. split; [exact K|]. intros C. left.
    destruct LR as [(_ & ->)|(_ & ->)]; apply BC, C.
Qed.

Lemma take_out_ok fuel s r k c l x rt : (depth rt <= fuel)%nat -> whole s r [] (plug k (N c l x rt)) ->
  taken s r x (plug k (N c l x rt)) (pre k ++ inorder l) (inorder rt ++ post k) (take_out fuel s x r).
Proof.
  intros F W. unfold take_out. destruct (node_at _ _ k c l x rt W) as (X & v & V).
  rewrite !(get_eq _ _ _ _ V). cbn [left right parent color bind].
  destruct (isleaf (top l)) eqn:IL.
  { assert (l = E) by (apply (top_zero s r x); [exact (subtree_at s r (FL c x rt :: k) l W)|apply Z.eqb_eq, IL]). subst l.
    exact (out_one s r k c E x rt rt (or_introl (conj eq_refl eq_refl)) W). }
  destruct (isleaf (top rt)) eqn:IR.
  { assert (rt = E) by (apply (top_zero s r x); [exact (subtree_at s r (FR c l x :: k) rt W)|apply Z.eqb_eq, IR]). subst rt.
    pose proof (out_one s r k c l x E l (or_intror (conj eq_refl eq_refl)) W) as H. rewrite IL in H. exact H. }
  assert (LE : l <> E) by (intros ->; discriminate). assert (RE : rt <> E) by (intros ->; discriminate). 
  destruct (leftmost_ok fuel rt s r x F RE (subtree_at s r (FR c l x :: k) rt W)) as (k1 & c1 & m & rr & E1 & E2 & G).
  rewrite E1. cbn [bind]. clear E1 IR F.
  set (K := k1 ++ FR c l x :: k).
  assert (WK : whole s r [] (plug K (N c1 E m rr))) by (unfold K; rewrite plug_app, <- E2; exact W).
  destruct (node_at _ _ K c1 E m rr WK) as (M & vm & VM). rewrite !(get_eq _ _ _ _ VM). cbn [left right parent color bind].
  pose proof (nodup_at s r K _ WK) as NDK. cbn [inorder app] in NDK.
  assert (XK : In x (cptrs K)).
  { unfold K. clear. induction k1 as [|[] k1 IH]; cbn; [auto| |]; right; apply in_or_app; auto. }
  assert (XM : x <> m) by (intros ->; count m).
  assert (MID : exists s1 s2, (if negb (isleaf (top rr)) then set_parent s (top rr) (ctop K) else Some s) = Some s1 /\
    (if ctop K =? x then let* s := set_right s1 (ctop K) (top rr) in Some (s, m)
     else let* s := set_left s1 (ctop K) (top rr) in Some (s, ctop K)) = Some (s2, ctop (k1 ++ FR c l m :: k)) /\
    whole s2 r K rr /\ only (ptrs K rr) r s s2 /\ nodes s2 m = nodes s m).
  { pose proof (proj2 (whole_plug s r K _) WK) as WK'. unfold K in *. clear K.
    destruct k1 as [|[c2 p2 r2|c2 l2 p2] k1].
    - cbn [app ctop] in *. destruct (splice s r (FR c l x :: k) c1 E m rr rr (fun s => set_right s x (top rr)) (or_introl (conj eq_refl eq_refl)) WK') as (s1 & s2 & A1 & A2 & A3 & A4 & A5).
      { intros s0 C0 ND0 _ _. apply (relink_right s0 r m k c x l C0 ND0). }
      exists s1, s2. split; [exact A1|]. rewrite Z.eqb_refl, A2. cbn [bind]. auto.
    - cbn [app ctop] in *. destruct (splice s r (FL c2 p2 r2 :: k1 ++ FR c l x :: k) c1 E m rr rr (fun s => set_left s p2 (top rr)) (or_introl (conj eq_refl eq_refl)) WK') as (s1 & s2 & A1 & A2 & A3 & A4 & A5).
      { intros s0 C0 ND0 _ _. apply (relink_left s0 r m _ c2 p2 r2 C0 ND0). }
      exists s1, s2. split; [exact A1|]. rewrite A2. cbn [bind].
      destruct (Z.eqb_spec p2 x) as [Q|_]; [|auto]. subst p2. exfalso.
      assert (In x (cptrs (k1 ++ FR c l x :: k))) by (clear; induction k1 as [|[] k1 IH]; cbn; [auto| |]; right; apply in_or_app; auto).
      count x.
    - inversion G as [|? ? H]. destruct H. }
  destruct MID as (s1 & s2 & A1 & A2 & W2 & O2 & M2). rewrite A1. cbn [bind]. rewrite A2. cbn [bind]. clear A1 A2 s1.
  set (rt' := plug k1 rr).
  assert (W2' : whole s2 r k (N c l x rt')).
  { apply (proj1 (whole_plug s2 r K rr)) in W2. unfold K in W2. rewrite plug_app in W2. exact (proj2 (whole_plug s2 r k (N c l x rt')) W2). }
  assert (MO : ~ In m (ptrs k (N c l x rt'))).
  { intros I. assert (I' : In m (ptrs K rr)).
    { apply in_plug. unfold K. rewrite plug_app. apply in_plug in I. exact I. }
    apply in_ptrs in I' as [I'|I']; count m. }
  pose proof (swap_ctx s2 r k c l x rt' m W2' M MO) as ND'.
  destruct W2' as [(_ & (w & V2) & L2 & R2) C2 ND2].
  rewrite in_ptrs in MO. cbn [inorder] in MO. rewrite in_app_iff in MO. cbn [In] in MO.
  assert (NL : NoDup (inorder l)).
  { apply nodup_cnt. intros q. apply nodup_cnt with (q := q) in ND2. cbn [inorder] in ND2. repeat first [rewrite count_occ_app in ND2 | rewrite cnt_cons in ND2]. lia. }
  assert (NR : NoDup (inorder rt')).
  { apply nodup_cnt. intros q. apply nodup_cnt with (q := q) in ND2. cbn [inorder] in ND2. repeat first [rewrite count_occ_app in ND2 | rewrite cnt_cons in ND2]. lia. }
  assert (NK : NoDup (cptrs k)).
  { apply nodup_cnt. intros q. apply nodup_cnt with (q := q) in ND2. rewrite count_occ_app in ND2. lia. }
  assert (XK' : ~ In x (cptrs k)) by (clear NDK XK; intros I; count x).
  rewrite V2. cbn [bind parent left right root TreeModel.color].
  assert (VM2 : nodes s2 m = Some (Node (ctop K) (top E) (top rr) r c1 false vm)) by (rewrite M2; exact VM).
  rewrite (change_eq _ _ _ _ VM2). cbn [bind error pay]. set (s3 := put s2 m _).
  assert (N3 : forall q, q <> m -> nodes s3 q = nodes s2 q) by (intros q Q; apply put_other, Q).
  assert (V3 : nodes s3 x = Some (Node (ctop k) (top l) (top rt') r c false w)) by (rewrite N3 by exact XM; exact V2).
  rewrite (get_eq _ _ _ _ V3). cbn [parent bind].
  assert (C3 : ctx_at s3 r x k) by (apply (ctx_agree s2); [|reflexivity|exact C2]; intros q Q; apply N3; intros ->; tauto).
  destruct (link_out_ok s3 r x k m m C3 NK X XK') as (s4 & E4 & C4 & F4 & R4 & O4).
  unfold link_out in E4. rewrite E4. cbn [bind]. clear E4.
  assert (N4 : forall q, In q (inorder (N c l x rt')) \/ q = m -> nodes s4 q = nodes s3 q).
  { intros q Q. apply F4. destruct k as [|fr k]; [auto|]. left. intros ->. clear NDK XK.
    pose proof (ctop_cnt (fr :: k) _ eq_refl ltac:(discriminate)) as H.
    destruct Q as [Q|Q]; [count (ctop (fr :: k))|]. rewrite Q in H. apply in_cnt in H. tauto. }
  assert (V4 : nodes s4 x = Some (Node (ctop k) (top l) (top rt') r c false w)) by (rewrite N4 by (left; apply in_mid); exact V3).
  rewrite !(get_eq _ _ _ _ V4). cbn [left bind].
  assert (L4 : tree_at s4 r x l).
  { apply (tree_agree s2); [|exact L2]. intros q Q. rewrite N4 by (left; cbn; apply in_or_app; auto). apply N3. intros ->. tauto. }
  assert (T4 : tree_at s4 r x rt').
  { apply (tree_agree s2); [|exact R2]. intros q Q. rewrite N4 by (left; cbn; apply in_or_app; cbn; auto). apply N3. intros ->. tauto. }
  destruct (reparent s4 r x l m L4 NL) as (s5 & E5 & L5 & F5 & R5 & O5). rewrite IL in E5. cbn [negb] in E5. rewrite E5. cbn [bind]. clear E5.
  assert (N5 : forall q, q = x \/ q = m \/ In q (inorder rt') \/ In q (cptrs k) -> nodes s5 q = nodes s4 q).
  { intros q Q. apply F5. destruct l as [|lc ll lx lr]; [auto|]. left. cbn [top]. intros ->. clear NDK XK.
    pose proof (in_mid (inorder ll) (inorder lr) lx) as I. destruct Q as [->|[->|[Q|Q]]]; [count x|tauto|count lx|count lx]. }
  assert (V5 : nodes s5 x = Some (Node (ctop k) (top l) (top rt') r c false w)) by (rewrite N5 by auto; exact V4).
  rewrite (get_eq _ _ _ _ V5). cbn [right bind].
  assert (T5 : tree_at s5 r x rt') by (apply (tree_agree s4); [|exact T4]; intros q Q; apply N5; auto).
  destruct (reparent s5 r x rt' m T5 NR) as (s6 & E6 & T6 & F6 & R6 & O6). rewrite E6. cbn [bind]. clear E6.
  assert (N6 : forall q, q = x \/ q = m \/ In q (inorder l) \/ In q (cptrs k) -> nodes s6 q = nodes s5 q).
  { intros q Q. apply F6. destruct rt' as [|lc ll lx lr]; [auto|]. left. cbn [top]. intros ->. clear NDK XK.
    pose proof (in_mid (inorder ll) (inorder lr) lx) as I. destruct Q as [->|[->|[Q|Q]]]; [count x|tauto|count lx|count lx]. }
  assert (W6 : whole s6 r k (N c l m rt')).
  { constructor.
    - cbn [tree_at]. split; [exact M|]. split; [exists vm; rewrite N6, N5, N4 by auto; unfold s3; rewrite put_same; reflexivity|].
      split; [|exact T6]. apply (tree_agree s5); [|exact L5]. intros q Q. apply N6. auto.
    - cbn [top]. apply (ctx_agree s4); [|rewrite R6, R5; reflexivity|exact C4]. intros q Q. rewrite N6, N5 by auto. reflexivity.
    - exact ND'. }
  exists s6, (k1 ++ FR c l m :: k), rr, c1. split; [reflexivity|].
  assert (PE : plug (k1 ++ FR c l m :: k) rr = plug k (N c l m rt')) by (rewrite plug_app; reflexivity).
  split; [rewrite PE; exact (proj1 (whole_plug s6 r k _) W6)|]. split; [|split; [|split; [|split]]].
  - set (LL := inorder (plug k (N c l x rt))).
    assert (IA : forall q, In q (inorder (plug K (N c1 E m rr))) -> In q LL) by (intros q Q; unfold LL, K in *; rewrite plug_app, <- E2 in Q; exact Q).
    assert (IT : forall q, In q (inorder l) \/ q = x \/ In q (inorder rt) -> In q LL).
    { intros q Q. apply in_plug, in_ptrs. left. cbn. apply in_or_app. cbn. destruct Q as [Q|[Q|Q]]; auto. }
    assert (IK : forall q, In q (cptrs k) -> In q LL) by (intros q Q; apply in_plug, in_ptrs; auto).
    assert (IM : In m LL) by (apply IA, in_plug, in_ptrs; left; left; reflexivity).
    assert (IRT : forall q, In q (inorder rt') -> In q (inorder rt)).
    { intros q Q. rewrite E2. unfold rt' in Q. apply in_plug. apply in_plug in Q. rewrite in_ptrs in *. cbn. tauto. }
    apply (only_trans _ _ _ s2).
    { eapply only_sub; [|exact O2]. intros q Q. apply IA, in_plug. rewrite in_ptrs in *. cbn. tauto. }
    apply (only_trans _ _ _ s3); [eapply only_put; [exact VM2|reflexivity|exact IM]|].
    apply (only_trans _ _ _ s4); [apply O4; intros NE; apply IK, in_cnt, ctop_cnt; auto|].
    apply (only_trans _ _ _ s5); [apply O5; intros NE; apply IT; left; apply in_cnt, top_cnt; auto|].
    apply O6. intros NE. apply IT. right. right. apply IRT, in_cnt, top_cnt; auto.
  - unfold isnode. rewrite N6, V5 by auto. discriminate.
  - rewrite PE, inorder_plug. cbn [inorder]. unfold rt'. rewrite E2, !inorder_plug, (pre_left k1 G). cbn. rewrite <- !app_assoc. cbn. rewrite <- !app_assoc. reflexivity.
  - pose proof (depth_plug K (N c1 E m rr)) as H. unfold K in H. rewrite plug_app, <- E2 in H. cbn [depth plug] in H.
    rewrite !app_length in *. cbn [length] in *. lia.
  - intros h RB B. replace (plug k (N c l x rt)) with (plug K (N c1 E m rr)) in RB, B by (unfold K; rewrite plug_app, <- E2; reflexivity).
    destruct (unplug_rb K _ h RB B) as (n' & T & HK & A). apply rb_inv in T as (n & L & R & BC & ->). exists n.
    split; [exact R|]. split; [exact (okc_swap k1 c l x m k _ _ HK)|]. intros CR. left. apply BC, CR.
Qed.
