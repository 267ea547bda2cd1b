(** Proofs about the red-black trees: the invariant, and the calls that change trees. *)

From Coq Require Import ZArith List Bool Lia Sorting.Permutation.
From Verif Require Import CUtil TreeModel TreeSpec TreeProofs TreeProofs2 TreeProofs3 TreeProofs4 TreeProofs5.
Import ListNotations.
Local Open Scope Z_scope.

Definition balanced (t : tree) : Prop := (exists n, redblack t n) /\ isb t = true.

(** Each root has its tree, and each node is in the tree of its root, or in none. *)
Record inv (s : st) (T : Z -> tree) : Prop := Inv {
  I_holds : forall r, r <> 0 -> holds s r (T r);
  I_rb : forall r, r <> 0 -> balanced (T r);
  I_node : forall p n, nodes s p = Some n -> root n = 0 /\ error n = false \/ root n <> 0 /\ In p (inorder (T (root n)));
  I_null : nodes s 0 = None
}.

Definition same_pays (s s' : st) : Prop := forall p, get pay s' p = get pay s p.
Definition ownerof (s : st) (p : Z) : Z := match nodes s p with Some n => root n | None => 0 end.

Lemma same_none s s' p : same_pays s s' -> nodes s p = None <-> nodes s' p = None.
Proof. intros H. specialize (H p). unfold get in H. destruct (nodes s p), (nodes s' p); split; congruence. Qed.

Lemma inv_whole s T r : inv s T -> r <> 0 -> whole s r [] (T r).
Proof. intros I R. apply whole_holds; [exact R|apply I, R]. Qed.

Lemma inv_in s T r p : inv s T -> r <> 0 -> In p (inorder (T r)) -> exists n, nodes s p = Some n /\ root n = r /\ error n = false.
Proof. intros I R P. destruct (I_holds s T I r R) as (_ & H & _). exact (tree_node s r 0 (T r) p H P). Qed.

Lemma owner_in s T r p : inv s T -> r <> 0 -> ownerof s p = r <-> In p (inorder (T r)).
Proof.
  intros I R. unfold ownerof. split.
  - destruct (nodes s p) as [n|] eqn:H; [|congruence]. intros <-. destruct (I_node s T I p n H) as [(Q & _)|(_ & Q)]; [contradiction|exact Q].
  - intros P. destruct (inv_in s T r p I R P) as (n & -> & Q & _). exact Q.
Qed.

Lemma upd_same {A} (f : Z -> A) x v : upd f x v x = v.
Proof. unfold upd. rewrite Z.eqb_refl. reflexivity. Qed.
Lemma upd_other {A} (f : Z -> A) x v y : y <> x -> upd f x v y = f y.
Proof. unfold upd. intros H. destruct (Z.eqb_spec y x); [contradiction|reflexivity]. Qed.

Lemma inv_update s T r s' t' L : inv s T -> r <> 0 -> only L r s s' ->
  (forall p, In p L -> In p (inorder (T r)) \/ ownerof s p = 0) -> whole s' r [] t' -> balanced t' ->
  (forall p n, In p L \/ In p (inorder (T r)) -> nodes s' p = Some n -> In p (inorder t') \/ root n = 0 /\ error n = false) ->
  inv s' (upd T r t').
Proof.
  intros I R O HL W B HN. pose proof (proj1 (whole_holds s' r t' R) W) as H'.
  constructor.
  - intros r2 R2. destruct (Z.eq_dec r2 r) as [->|NE]; [rewrite upd_same; exact H'|]. rewrite upd_other by exact NE.
    destruct (I_holds s T I r2 R2) as (H1 & H2 & H3). split; [rewrite (O_roots _ _ _ _ O r2 NE); exact H1|]. split; [|exact H3].
    apply (tree_agree s); [|exact H2]. intros q Q. apply (O_nodes _ _ _ _ O). intros QL.
    pose proof (proj2 (owner_in s T r2 q I R2) Q) as OQ. destruct (HL q QL) as [QL'|QL'].
    + apply (owner_in s T r q I R) in QL'. congruence.
    + congruence.
  - intros r2 R2. destruct (Z.eq_dec r2 r) as [->|NE]; [rewrite upd_same; exact B|]. rewrite upd_other by exact NE. apply I, R2.
  - intros p n N.
    destruct (in_dec Z.eq_dec p L) as [PL|PL].
    + destruct (HN p n (or_introl PL) N) as [Q|Q]; [|auto]. right. destruct H' as (_ & H' & _).
      destruct (tree_node s' r 0 t' p H' Q) as (n' & N' & RN & _). rewrite N in N'. injection N' as <-. rewrite RN, upd_same. auto.
    + pose proof N as N0. rewrite (O_nodes _ _ _ _ O p PL) in N. destruct (I_node s T I p n N) as [Q|(Q1 & Q2)]; [auto|].
      destruct (Z.eq_dec (root n) r) as [E1|NE].
      * rewrite E1 in Q2. destruct (HN p n (or_intror Q2) N0) as [Q|Q]; [|auto]. right. rewrite E1, upd_same. auto.
      * right. rewrite upd_other by exact NE. auto.
  - rewrite <- (same_none s s'); [apply I|intros p; apply O].
Qed.

Lemma own_after s T r s' t' p : inv s T -> inv s' (upd T r t') -> r <> 0 ->
  ownerof s' p = if in_dec Z.eq_dec p (inorder t') then r else if in_dec Z.eq_dec p (inorder (T r)) then 0 else ownerof s p.
Proof.
  intros I I' R. destruct (in_dec Z.eq_dec p (inorder t')) as [P|P].
  - apply (owner_in s' _ r p I' R). rewrite upd_same. exact P.
  - assert (NR : ownerof s' p <> r) by (intros Q; apply (owner_in s' _ r p I' R) in Q; rewrite upd_same in Q; contradiction).
    assert (UP : forall r2, r2 <> 0 -> r2 <> r -> ownerof s' p = r2 <-> ownerof s p = r2).
    { intros r2 R2 N2. rewrite (owner_in s' _ r2 p I' R2), (owner_in s T r2 p I R2), upd_other by exact N2. reflexivity. }
    destruct (in_dec Z.eq_dec p (inorder (T r))) as [Q|Q].
    + apply (owner_in s T r p I R) in Q. destruct (Z.eq_dec (ownerof s' p) 0) as [Z0|NZ]; [exact Z0|].
      pose proof (proj1 (UP _ NZ NR) eq_refl). congruence.
    + destruct (Z.eq_dec (ownerof s' p) 0) as [Z0|NZ]; [|symmetry; apply (proj1 (UP _ NZ NR)); reflexivity].
      rewrite Z0. destruct (Z.eq_dec (ownerof s p) 0) as [Y0|NY]; [congruence|].
      assert (NY2 : ownerof s p <> r) by (intros H; apply (owner_in s T r p I R) in H; contradiction).
      pose proof (proj2 (UP _ NY NY2) eq_refl). congruence.
Qed.

(** * Inserting *)

Lemma orphan_out s T r x nx : inv s T -> r <> 0 -> nodes s x = Some nx -> root nx = 0 -> ~ In x (inorder (T r)).
Proof. intros I R V Q P. destruct (inv_in s T r x I R P) as (n & N & H & _). congruence. Qed.

Definition inserted (s : st) (T : Z -> tree) (r x : Z) (a b : list Z) (res : option (st * Z)) : Prop :=
  exists s' t', res = Some (s', x) /\ inv s' (upd T r t') /\ inorder t' = a ++ x :: b /\ same_pays s s'.

Lemma insert_end fuel s T r k x nx s1 : inv s T -> r <> 0 -> T r = plug k E -> nodes s x = Some nx -> root nx = 0 ->
  (length k < fuel)%nat -> whole s1 r [] (plug k (N RED E x E)) -> only (x :: inorder (plug k E)) r s s1 ->
  inserted s T r x (pre k) (post k) (let* s := insert_fixup fuel s1 x r in Some (s, x)).
Proof.
  intros I R TR V RX F W O. destruct (I_rb s T I r R) as ((m & RB) & B). rewrite TR in RB, B.
  destruct (unplug_rb k E m RB B) as (n & RE & K & _). inversion RE; subst n.
  destruct (insert_fixup_ok fuel k s1 r E x E 0 m F W (RB_red _ _ _ _ RE RE eq_refl eq_refl) K) as (t' & m' & (s' & E1 & W' & I' & O') & RB' & B').
  exists s', t'. rewrite E1. cbn [bind]. split; [reflexivity|].
  assert (IN : inorder t' = pre k ++ x :: post k) by (rewrite I', inorder_plug; reflexivity).
  assert (OA : only (x :: inorder (plug k E)) r s s').
  { apply (only_trans _ _ _ s1); [exact O|]. eapply only_sub; [|exact O']. intros q Q. rewrite inorder_plug in *. cbn in *.
    apply in_app_or in Q as [Q|[Q|Q]]; [right; apply in_or_app; auto|left; exact Q|right; apply in_or_app; auto]. }
  split; [|split; [exact IN|exact (O_pays _ _ _ _ OA)]].
  apply (inv_update s T r s' t' (x :: inorder (plug k E)) I R OA).
  - rewrite TR. intros p [<-|P]; [right; unfold ownerof; rewrite V; exact RX|left; exact P].
  - exact W'.
  - split; [exists m'; exact RB'|exact B'].
  - intros p n P _. left. rewrite IN. rewrite TR, inorder_plug in P. cbn in P. apply in_or_app. cbn.
    rewrite in_app_iff in P. tauto.
Qed.

Lemma insert_left_at fuel s T r k c q rt x nx r0 : inv s T -> r <> 0 -> T r = plug k (N c E q rt) -> nodes s x = Some nx -> root nx = 0 ->
  (depth (T r) < fuel)%nat -> inserted s T r x (pre k) (q :: inorder rt ++ post k) (insert_left_or_root fuel s x q r0).
Proof.
  intros I R TR V RX F. pose proof (inv_whole s T r I R) as W. rewrite TR in W.
  pose proof (orphan_out s T r x nx I R V RX) as NI. rewrite TR in NI.
  unfold insert_left_or_root, isorphan. rewrite (get_eq _ _ _ _ V), RX. cbn [bind Z.eqb negb].
  destruct (node_at _ _ k c E q rt W) as (Q & v & VQ). unfold isleaf. destruct (Z.eqb_spec q 0); [contradiction|].
  rewrite !(get_eq _ _ _ _ VQ). cbn [bind left root top Z.eqb negb].
  assert (X : x <> 0) by (intros ->; rewrite (I_null s T I) in V; discriminate).
  assert (EX : error nx = false) by (destruct (I_node s T I x nx V) as [(_ & H)|(H & _)]; [exact H|contradiction]).
  destruct (link_left_ok s r k c q rt x nx W V X EX NI) as (s1 & E1 & W1 & O1). rewrite E1. cbn [bind].
  destruct (node_at _ _ (FL c q rt :: k) RED E x E W1) as (_ & vx & VX). rewrite (get_eq _ _ _ _ VX). cbn [bind root].
  apply (insert_end fuel s T r (FL c q rt :: k) x nx s1 I R TR V RX); [|exact W1|exact O1].
  rewrite TR in F. pose proof (depth_plug k (N c E q rt)) as H. cbn [depth length] in *. lia.
Qed.

Lemma insert_right_at fuel s T r k c l q x nx r0 : inv s T -> r <> 0 -> T r = plug k (N c l q E) -> nodes s x = Some nx -> root nx = 0 ->
  (depth (T r) < fuel)%nat -> inserted s T r x (pre k ++ inorder l ++ [q]) (post k) (insert_right_or_root fuel s x q r0).
Proof.
  intros I R TR V RX F. pose proof (inv_whole s T r I R) as W. rewrite TR in W.
  pose proof (orphan_out s T r x nx I R V RX) as NI. rewrite TR in NI.
  unfold insert_right_or_root, isorphan. rewrite (get_eq _ _ _ _ V), RX. cbn [bind Z.eqb negb].
  destruct (node_at _ _ k c l q E W) as (Q & v & VQ). unfold isleaf. destruct (Z.eqb_spec q 0); [contradiction|].
  rewrite !(get_eq _ _ _ _ VQ). cbn [bind right root top Z.eqb negb].
  assert (X : x <> 0) by (intros ->; rewrite (I_null s T I) in V; discriminate).
  assert (EX : error nx = false) by (destruct (I_node s T I x nx V) as [(_ & H)|(H & _)]; [exact H|contradiction]).
  destruct (link_right_ok s r k c l q x nx W V X EX NI) as (s1 & E1 & W1 & O1). rewrite E1. cbn [bind].
  destruct (node_at _ _ (FR c l q :: k) RED E x E W1) as (_ & vx & VX). rewrite (get_eq _ _ _ _ VX). cbn [bind root].
  apply (insert_end fuel s T r (FR c l q :: k) x nx s1 I R TR V RX); [|exact W1|exact O1].
  rewrite TR in F. pose proof (depth_plug k (N c l q E)) as H. cbn [depth length] in *. lia.
Qed.

Lemma insert_root_at fuel s T r x nx : inv s T -> r <> 0 -> T r = E -> nodes s x = Some nx -> root nx = 0 ->
  (0 < fuel)%nat -> inserted s T r x [] [] (insert_left_or_root fuel s x 0 r) /\ inserted s T r x [] [] (insert_right_or_root fuel s x 0 r).
Proof.
  intros I R TR V RX F. pose proof (inv_whole s T r I R) as W. rewrite TR in W.
  unfold insert_left_or_root, insert_right_or_root, isorphan. rewrite (get_eq _ _ _ _ V), RX. cbn [bind Z.eqb negb isleaf].
  unfold isempty. destruct (root_at _ _ _ W) as (_ & RT). rewrite (load_eq _ _ R), RT. cbn [bind top Z.eqb negb].
  assert (X : x <> 0) by (intros ->; rewrite (I_null s T I) in V; discriminate).
  assert (EX : error nx = false) by (destruct (I_node s T I x nx V) as [(_ & H)|(H & _)]; [exact H|contradiction]).
  destruct (link_root_ok s r x nx W V X EX) as (s1 & E1 & W1 & O1). rewrite E1. cbn [bind].
  split; apply (insert_end fuel s T r [] x nx s1 I R TR V RX F W1 O1).
Qed.

(** * Removing *)

Lemma whole_in s r t p : whole s r [] t -> In p (inorder t) -> exists n, nodes s p = Some n /\ root n = r /\ error n = false.
Proof. intros W. exact (tree_node s r 0 t p (W_tree _ _ _ _ W)). Qed.

Lemma rb_deficit t n : redblack t n -> deficit t n.
Proof. destruct t as [|[] l x rt]; cbn; auto. intros H. inversion H; subst. auto. Qed.

Lemma remove_at fuel s T r k c l x rt : inv s T -> r <> 0 -> T r = plug k (N c l x rt) -> (depth (T r) + 1 < fuel)%nat ->
  exists s' t', remove fuel s x = Some (s', x) /\ inv s' (upd T r t') /\
    inorder t' = (pre k ++ inorder l) ++ inorder rt ++ post k /\ same_pays s s'.
Proof.
  intros I R TR F. pose proof (inv_whole s T r I R) as W. rewrite TR in W.
  destruct (node_at _ _ k c l x rt W) as (X & v & V). unfold remove, isleaf, isorphan. destruct (Z.eqb_spec x 0); [contradiction|].
  rewrite !(get_eq _ _ _ _ V). cbn [root bind]. destruct (Z.eqb_spec r 0); [contradiction|].
  pose proof (depth_plug k (N c l x rt)) as DP. cbn [depth] in DP. rewrite TR in F.
  destruct (take_out_ok fuel s r k c l x rt ltac:(lia) W) as (s1 & k' & t1 & col & E1 & W1 & O1 & X1 & IN & LK & RB).
  rewrite E1. cbn [bind]. clear E1.
  destruct (I_rb s T I r R) as ((m & RB0) & B0). rewrite TR in RB0, B0. destruct (RB m RB0 B0) as (h & T1 & K1 & A1). clear RB.
  assert (FX : exists s2 t2, (if Bool.eqb col BLACK then remove_fixup fuel s1 (top t1) (ctop k') r else Some s1) = Some s2 /\
    whole s2 r [] t2 /\ inorder t2 = inorder (plug k' t1) /\ only (inorder (plug k' t1)) r s1 s2 /\ balanced t2).
  { destruct col.
    - change (Bool.eqb true BLACK) with true. cbv iota.
      destruct (remove_fixup_ok fuel k' s1 r t1 h m) as (t2 & m2 & (s2 & E2 & W2 & I2 & O2) & RB2 & B2);
        [unfold enough; destruct (isb t1); lia|exact W1|apply rb_deficit, T1|exact K1|].
      exists s2, t2. repeat (split; [assumption|]). split; [exists m2; exact RB2|exact B2].
    - change (Bool.eqb false BLACK) with false. cbv iota. exists s1, (plug k' t1). split; [reflexivity|]. split; [exact W1|]. split; [reflexivity|].
      split; [apply only_refl|]. destruct (plug_rb k' t1 h m K1 T1 (A1 eq_refl)) as (P1 & P2). split; [exists m; exact P1|exact P2]. }
  destruct FX as (s2 & t2 & E2 & W2 & I2 & O2 & B2). rewrite E2. cbn [bind]. clear E2.
  assert (XN : ~ In x (inorder (plug k' t1))).
  { rewrite IN. intros P. pose proof (nodup_at s r [] _ W) as ND. cbn [cptrs] in ND. rewrite app_nil_r, inorder_plug in ND. cbn [inorder] in ND.
    count x. }
  assert (X2 : nodes s2 x = nodes s1 x) by (apply O2; exact XN).
  unfold isnode in X1. destruct (nodes s1 x) as [nx|] eqn:VX; [|congruence].
  unfold init. rewrite (change_eq _ s2 x nx X2). cbn [bind]. eexists _, t2. split; [reflexivity|]. set (s3 := put s2 x _).
  assert (ALL : forall q, In q (inorder (plug k' t1)) -> In q (inorder (plug k (N c l x rt)))).
  { intros q Q. rewrite IN in Q. rewrite inorder_plug. cbn. rewrite !in_app_iff in *. cbn. rewrite ?in_app_iff. tauto. }
  assert (IX : In x (inorder (plug k (N c l x rt)))) by (apply in_plug, in_ptrs; left; apply in_mid).
  assert (O3 : only (inorder (plug k (N c l x rt))) r s s3).
  { apply (only_trans _ _ _ s1); [exact O1|]. apply (only_trans _ _ _ s2); [eapply only_sub; [exact ALL|exact O2]|].
    eapply only_put; [exact X2|reflexivity|exact IX]. }
  split; [|split; [rewrite I2; exact IN|exact (O_pays _ _ _ _ O3)]].
  apply (inv_update s T r s3 t2 _ I R O3).
  - rewrite TR. auto.
  - destruct W2 as [H1 H2 H3]. constructor; [apply (tree_agree s2); [|exact H1]|apply (ctx_agree s2); [intros q []|reflexivity|exact H2]|exact H3].
    intros q Q. apply put_other. intros ->. rewrite I2 in Q. contradiction.
  - exact B2.
  - intros p np P N3. rewrite TR in P. assert (P' : In p (inorder (plug k (N c l x rt)))) by tauto. clear P.
    destruct (Z.eq_dec p x) as [->|NE].
    + unfold s3 in N3. rewrite put_same in N3. injection N3 as <-. right. auto.
    + left. rewrite I2, IN. rewrite inorder_plug in P'. cbn in P'. rewrite !in_app_iff in *. cbn in P'. rewrite ?in_app_iff in P'.
      destruct P' as [P'|[[P'|[P'|P']]|P']]; auto. congruence.
Qed.

(** * Replacing *)

Lemma replace_at s T r k c l x rt y ny : inv s T -> r <> 0 -> T r = plug k (N c l x rt) -> nodes s y = Some ny -> root ny = 0 ->
  exists s' t', replace s x y = Some (s', x) /\ inv s' (upd T r t') /\
    inorder t' = (pre k ++ inorder l) ++ y :: inorder rt ++ post k /\ same_pays s s'.
Proof.
  intros I R TR V RY. pose proof (inv_whole s T r I R) as W. rewrite TR in W.
  assert (Y : y <> 0) by (intros ->; rewrite (I_null s T I) in V; discriminate).
  assert (EY : error ny = false) by (destruct (I_node s T I y ny V) as [(_ & H)|(H & _)]; [exact H|contradiction]).
  pose proof (proj2 (whole_plug s r k _) W) as WK.
  destruct (replace_ok s r k c l x rt y ny WK V Y RY EY) as (s' & E1 & W1 & O1 & (v & VX)).
  exists s', (plug k (N c l y rt)). split; [exact E1|]. assert (IN : inorder (plug k (N c l y rt)) = (pre k ++ inorder l) ++ y :: inorder rt ++ post k).
  { rewrite inorder_plug. cbn. rewrite <- !app_assoc. reflexivity. }
  assert (IX : In x (inorder (plug k (N c l x rt)))) by (apply in_plug, in_ptrs; left; apply in_mid).
  split; [|split; [exact IN|exact (O_pays _ _ _ _ O1)]].
  apply (inv_update s T r s' _ _ I R O1).
  - rewrite TR. intros p [<-|[<-|P]]; [auto|right; unfold ownerof; rewrite V; exact RY|left; apply in_plug, P].
  - exact (proj1 (whole_plug s' r k _) W1).
  - destruct (I_rb s T I r R) as ((m & RB) & B). rewrite TR in RB, B. destruct (unplug_rb k _ m RB B) as (n & H1 & H2 & H3).
    assert (H1' : redblack (N c l y rt) n) by (inversion H1; subst; constructor; assumption).
    destruct (plug_rb k (N c l y rt) n m H2 H1' H3). split; [exists m; assumption|assumption].
  - intros p n P N1. rewrite TR in P.
    destruct (Z.eq_dec p x) as [->|NE]; [rewrite VX in N1; injection N1 as <-; right; auto|]. left.
    assert (P' : p = y \/ In p (inorder (plug k (N c l x rt)))).
    { destruct P as [[P|[P|P]]|P]; [congruence|auto| |auto]. right. apply in_plug, P. }
    rewrite IN. destruct P' as [->|P']; [apply in_mid|]. rewrite inorder_plug in P'. cbn in P'. rewrite !in_app_iff in *. cbn in *. rewrite ?in_app_iff in *.
    destruct P' as [P'|[[P'|[P'|P']]|P']]; auto. congruence.
Qed.
