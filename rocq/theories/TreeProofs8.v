(** Proofs about the red-black trees: histories, and the reference. *)

From Coq Require Import ZArith List Bool Lia Sorting.Permutation Sorting.Sorted.
From Verif Require Import CUtil TreeModel TreeSpec TreeProofs TreeProofs2 TreeProofs3 TreeProofs4 TreeProofs5 TreeProofs6 TreeProofs7.
Import ListNotations.
Local Open Scope Z_scope.

Definition deep (T : Z -> tree) (fuel : nat) : Prop := forall r, r <> 0 -> (depth (T r) + 2 <= fuel)%nat.

(** At most one tree changed. *)
Definition moved (T T' : Z -> tree) : Prop := T' = T \/ exists r t, T' = upd T r t.
Lemma moved_same T : moved T T.
Proof. left. reflexivity. Qed.
Lemma moved_upd T r t : moved T (upd T r t).
Proof. right. eauto. Qed.
Lemma moved_deep T T' f : moved T T' -> deep T f -> exists f', deep T' f'.
Proof.
  intros [->|(r & t & ->)] D; [exists f; exact D|]. exists (Nat.max f (depth t + 2)). intros q Q. specialize (D q Q). unfold upd.
  destruct (q =? r); lia.
Qed.
Local Hint Resolve moved_same moved_upd : core.

(** * The calls that need no order *)

Lemma node_cases s T p n : inv s T -> nodes s p = Some n ->
  (root n = 0 /\ error n = false) \/ (root n <> 0 /\ exists k c l rt, T (root n) = plug k (N c l p rt)).
Proof.
  intros I V. destruct (I_node s T I p n V) as [Q|(Q & P)]; [auto|]. right. split; [exact Q|]. exact (locate _ _ P).
Qed.

Lemma replace_step s T p q : inv s T -> isnode s p -> isnode s q ->
  exists s' z T', replace s p q = Some (s', z) /\ inv s' T' /\ moved T T'.
Proof.
  intros I P Q. unfold isnode in *. destruct (nodes s p) as [np|] eqn:VP; [|congruence]. destruct (nodes s q) as [nq|] eqn:VQ; [|congruence].
  destruct (node_cases s T p np I VP) as [(R & _)|(R & k & c & l & rt & TR)].
  - exists s, 0, T. split; [|auto]. unfold replace, isorphan. rewrite (get_eq _ _ _ _ VP), R. reflexivity.
  - destruct (Z.eq_dec (root nq) 0) as [R2|R2].
    + destruct (replace_at s T (root np) k c l p rt q nq I R TR VQ R2) as (s' & t' & E1 & I' & _). exists s', p, (upd T (root np) t'). auto.
    + exists s, 0, T. split; [|auto]. unfold replace, isorphan. rewrite (get_eq _ _ _ _ VP), (get_eq _ _ _ _ VQ). cbn [bind].
      destruct (Z.eqb_spec (root np) 0); [contradiction|]. destruct (Z.eqb_spec (root nq) 0); [contradiction|]. reflexivity.
Qed.

Lemma insert_left_step fuel s T x q r : inv s T -> deep T fuel -> isnode s x -> (q = 0 /\ r <> 0 \/ planted s q) ->
  exists s' z T', insert_left_or_root fuel s x q r = Some (s', z) /\ inv s' T' /\ moved T T'.
Proof.
  intros I D X Q. unfold isnode in X. destruct (nodes s x) as [nx|] eqn:VX; [|congruence].
  destruct (Z.eq_dec (root nx) 0) as [R|R].
  2: { exists s, 0, T. split; [|auto]. unfold insert_left_or_root, isorphan. rewrite (get_eq _ _ _ _ VX). cbn [bind].
    destruct (Z.eqb_spec (root nx) 0); [contradiction|]. reflexivity. }
  destruct Q as [(-> & RZ)|(nq & VQ & RQ)].
  - destruct (T r) as [|c l y rt] eqn:TR.
    + destruct (insert_root_at fuel s T r x nx I RZ TR VX R) as ((s' & t' & E1 & I' & _) & _); [specialize (D r RZ); lia|]. eauto 10.
    + exists s, 0, T. split; [|auto]. unfold insert_left_or_root, isorphan, isempty. rewrite (get_eq _ _ _ _ VX), R. cbn [bind Z.eqb negb isleaf].
      pose proof (inv_whole s T r I RZ) as W. destruct (root_at _ _ _ W) as (_ & RT). rewrite (load_eq _ _ RZ), RT, TR. cbn [bind top].
      rewrite TR in W. destruct (node_at _ _ [] c l y rt W) as (Y & _). destruct (Z.eqb_spec y 0); [contradiction|]. reflexivity.
  - destruct (node_cases s T q nq I VQ) as [(RQ' & _)|(_ & k & c & l & rt & TR)]; [contradiction|].
    destruct l as [|lc ll lx lr].
    + destruct (insert_left_at fuel s T (root nq) k c q rt x nx r I RQ TR VX R) as (s' & t' & E1 & I' & _); [specialize (D _ RQ); lia|]. eauto 10.
    + exists s, 0, T. split; [|auto]. unfold insert_left_or_root, isorphan. rewrite (get_eq _ _ _ _ VX), R. cbn [bind Z.eqb negb].
      pose proof (inv_whole s T (root nq) I RQ) as W. rewrite TR in W. destruct (node_at _ _ k c _ q rt W) as (Q & v & V). unfold isleaf.
      destruct (Z.eqb_spec q 0); [contradiction|]. rewrite !(get_eq _ _ _ _ V). cbn [bind left top].
      destruct (node_at _ _ (FL c q rt :: k) lc ll lx lr W) as (LX & _). destruct (Z.eqb_spec lx 0); [contradiction|]. reflexivity.
Qed.
Lemma insert_right_step fuel s T x q r : inv s T -> deep T fuel -> isnode s x -> (q = 0 /\ r <> 0 \/ planted s q) ->
  exists s' z T', insert_right_or_root fuel s x q r = Some (s', z) /\ inv s' T' /\ moved T T'.
Proof.
  intros I D X Q. unfold isnode in X. destruct (nodes s x) as [nx|] eqn:VX; [|congruence].
  destruct (Z.eq_dec (root nx) 0) as [R|R].
  2: { exists s, 0, T. split; [|auto]. unfold insert_right_or_root, isorphan. rewrite (get_eq _ _ _ _ VX). cbn [bind].
    destruct (Z.eqb_spec (root nx) 0); [contradiction|]. reflexivity. }
  destruct Q as [(-> & RZ)|(nq & VQ & RQ)].
  - destruct (T r) as [|c l y rt] eqn:TR.
    + destruct (insert_root_at fuel s T r x nx I RZ TR VX R) as (_ & (s' & t' & E1 & I' & _)); [specialize (D r RZ); lia|]. eauto 10.
    + exists s, 0, T. split; [|auto]. unfold insert_right_or_root, isorphan, isempty. rewrite (get_eq _ _ _ _ VX), R. cbn [bind Z.eqb negb isleaf].
      pose proof (inv_whole s T r I RZ) as W. destruct (root_at _ _ _ W) as (_ & RT). rewrite (load_eq _ _ RZ), RT, TR. cbn [bind top].
      rewrite TR in W. destruct (node_at _ _ [] c l y rt W) as (Y & _). destruct (Z.eqb_spec y 0); [contradiction|]. reflexivity.
  - destruct (node_cases s T q nq I VQ) as [(RQ' & _)|(_ & k & c & l & rt & TR)]; [contradiction|].
    destruct rt as [|lc ll lx lr].
    + destruct (insert_right_at fuel s T (root nq) k c l q x nx r I RQ TR VX R) as (s' & t' & E1 & I' & _); [specialize (D _ RQ); lia|]. eauto 10.
    + exists s, 0, T. split; [|auto]. unfold insert_right_or_root, isorphan. rewrite (get_eq _ _ _ _ VX), R. cbn [bind Z.eqb negb].
      pose proof (inv_whole s T (root nq) I RQ) as W. rewrite TR in W. destruct (node_at _ _ k c l q _ W) as (Q & v & V). unfold isleaf.
      destruct (Z.eqb_spec q 0); [contradiction|]. rewrite !(get_eq _ _ _ _ V). cbn [bind right top].
      destruct (node_at _ _ (FR c l q :: k) lc ll lx lr W) as (LX & _). destruct (Z.eqb_spec lx 0); [contradiction|]. reflexivity.
Qed.

(** What a search yields. *)
Lemma close_at fuel s T r p np cmp : inv s T -> deep T fuel -> r <> 0 -> nodes s p = Some np ->
  (T r = E /\ find_close fuel s r p cmp = Some (0, 0)) \/
  exists q k c l rt rc, find_close fuel s r p cmp = Some (q, rc) /\ T r = plug k (N c l q rt) /\ q <> 0 /\ planted s q /\
    rc = cmp (payof s q) (pay np) /\ (rc < 0 -> rt = E) /\ (rc > 0 -> l = E) /\
    (total_order cmp -> ascending cmp s (inorder (T r)) ->
     (forall z, In z (pre k) -> cmp (payof s z) (pay np) < 0) /\ (forall z, In z (post k) -> cmp (payof s z) (pay np) > 0)).
Proof.
  intros I D R V. pose proof (inv_whole s T r I R) as W. destruct (root_at _ _ _ W) as (_ & RT).
  unfold find_close. rewrite (load_eq _ _ R), RT. cbn [bind]. specialize (D r R).
  destruct (T r) as [|c0 l0 x0 r0] eqn:TR.
  - left. split; [reflexivity|]. cbn [depth] in D. destruct fuel as [|fuel]; [lia|]. reflexivity.
  - right. destruct (search_ok fuel (N c0 l0 x0 r0) [] s r p (pay np) cmp 0 ltac:(lia) ltac:(discriminate) W (get_eq _ _ _ _ V))
      as (q & k & c & l & rt & rc & E1 & E2 & E3 & E4 & E5 & E6).
    exists q, k, c, l, rt, rc. cbn [plug] in *. split; [exact E1|]. split; [exact E2|]. rewrite E2 in W. destruct (node_at _ _ k c l q rt W) as (Q & v & VQ).
    split; [exact Q|]. split; [eexists; split; [exact VQ|exact R]|]. split; [exact E3|]. split; [exact E4|]. split; [exact E5|].
    intros TO AS. apply E6; [exact TO|exact AS|intros ? []|intros ? []].
Qed.

Lemma step_ok cmp fuel s T o : inv s T -> deep T fuel -> permitted s o ->
  exists s' z T', step cmp fuel s o = Some (s', z) /\ inv s' T' /\ moved T T'.
Proof.
  intros I D P. destruct o; cbn [step permitted] in *.
  - destruct P as (R & X). pose proof X as X0. unfold isnode in X. destruct (nodes s targetp) as [np|] eqn:V; [|congruence]. clear X.
    unfold search_insert_or_replace. destruct (close_at fuel s T rootp targetp np cmp I D R V) as [(TE & E1)|(q & k & c & l & rt & rc & E1 & E2 & Q & PQ & _)];
      unfold find_close in E1; rewrite (load_eq _ _ R) in *; cbn [bind] in *; rewrite E1; cbn [bind].
    + unfold insert_root. apply (insert_left_step fuel s T); auto.
    + destruct (Z.eqb_spec q 0); [contradiction|]. unfold insert_right, insert_left. pose proof PQ as (nq & VQ & _). rewrite (get_eq _ _ _ _ VQ). cbn [bind].
      destruct (rc <? 0); [apply (insert_right_step fuel s T); auto|]. destruct (0 <? rc); [apply (insert_left_step fuel s T); auto|].
      destruct rep; [|exists s, 0, T; auto]. apply (replace_step s T q targetp I); [unfold isnode; congruence|exact X0].
  - apply (insert_left_step fuel s T); tauto.
  - apply (insert_right_step fuel s T); tauto.
  - destruct P as [->|P]; [exists s, 0, T; auto|]. unfold isnode in P. destruct (nodes s nodep) as [n|] eqn:V; [|congruence].
    destruct (node_cases s T nodep n I V) as [(R & _)|(R & k & c & l & rt & TR)].
    + exists s, 0, T. split; [|auto]. unfold remove, isorphan. destruct (isleaf nodep); [reflexivity|]. rewrite (get_eq _ _ _ _ V), R. reflexivity.
    + destruct (remove_at fuel s T (root n) k c l nodep rt I R TR) as (s' & t' & E1 & I' & _); [specialize (D _ R); lia|]. eauto 10.
  - apply (replace_step s T oldp newp I); tauto.
  - destruct P as (R & X). unfold isnode in X. destruct (nodes s targetp) as [np|] eqn:V; [|congruence]. unfold find.
    destruct (close_at fuel s T rootp targetp np cmp I D R V) as [(TE & E1)|(q & k & c & l & rt & rc & E1 & _)]; rewrite E1; cbn [bind]; eauto 10.
  - rewrite (first_at fuel s rootp (T rootp) (inv_whole s T rootp I P)) by (specialize (D _ P); lia). cbn [bind]. eauto 10.
  - rewrite (last_at fuel s rootp (T rootp) (inv_whole s T rootp I P)) by (specialize (D _ P); lia). cbn [bind]. eauto 10.
  - unfold isnode in P. destruct (nodes s nodep) as [n|] eqn:V; [|congruence].
    destruct (node_cases s T nodep n I V) as [(R & _)|(R & k & c & l & rt & TR)].
    + unfold next, isorphan. rewrite (get_eq _ _ _ _ V), R. cbn [bind Z.eqb]. eauto 10.
    + pose proof (inv_whole s T (root n) I R) as W. specialize (D _ R). rewrite TR in W, D.
      rewrite (next_at fuel s (root n) k c l nodep rt R W) by lia. cbn [bind]. eauto 10.
  - unfold isnode in P. destruct (nodes s nodep) as [n|] eqn:V; [|congruence].
    destruct (node_cases s T nodep n I V) as [(R & _)|(R & k & c & l & rt & TR)].
    + unfold prev, isorphan. rewrite (get_eq _ _ _ _ V), R. cbn [bind Z.eqb]. eauto 10.
    + pose proof (inv_whole s T (root n) I R) as W. specialize (D _ R). rewrite TR in W, D.
      rewrite (prev_at fuel s (root n) k c l nodep rt R W) by lia. cbn [bind]. eauto 10.
  - rewrite (audit_at fuel s rootp (T rootp) (inv_whole s T rootp I P) (I_rb s T I rootp P)) by (specialize (D _ P); lia). cbn [bind]. eauto 10.
  - unfold isempty. rewrite (load_eq _ _ P). cbn [bind]. eauto 10.
  - destruct P as (n & V & R). unfold init. rewrite (change_eq _ _ _ _ V). cbn [bind]. eexists _, _, T. split; [reflexivity|]. split; [|auto].
    destruct I as [I1 I2 I3 I4]. constructor.
    + intros r RZ. destruct (I1 r RZ) as (H1 & H2 & H3). split; [exact H1|]. split; [|exact H3]. apply (tree_agree s); [|exact H2].
      intros q Q. apply put_other. intros ->. destruct (tree_node s r 0 (T r) nodep H2 Q) as (n' & N' & R' & _). congruence.
    + exact I2.
    + intros p n' N'. destruct (Z.eq_dec p nodep) as [->|NE]; [rewrite put_same in N'; injection N' as <-; left; auto|].
      rewrite put_other in N' by exact NE. apply I3, N'.
    + rewrite put_other; [exact I4|]. intros <-. congruence.
  - destruct P as (n & V & R). rewrite (change_eq _ _ _ _ V). cbn [bind]. eexists _, _, T. split; [reflexivity|]. split; [|auto].
    assert (EN : error n = false) by (destruct (I_node s T I nodep n V) as [(_ & H)|(H & _)]; [exact H|contradiction]).
    destruct I as [I1 I2 I3 I4]. constructor.
    + intros r RZ. destruct (I1 r RZ) as (H1 & H2 & H3). split; [exact H1|]. split; [|exact H3]. apply (tree_agree s); [|exact H2].
      intros q Q. apply put_other. intros ->. destruct (tree_node s r 0 (T r) nodep H2 Q) as (n' & N' & R' & _). congruence.
    + exact I2.
    + intros p n' N'. destruct (Z.eq_dec p nodep) as [->|NE]; [rewrite put_same in N'; injection N' as <-; left; auto|].
      rewrite put_other in N' by exact NE. apply I3, N'.
    + rewrite put_other; [exact I4|]. intros <-. congruence.
Qed.

(** * Histories *)

Lemma start_inv valid pays : inv (start valid pays) (fun _ => E).
Proof.
  constructor.
  - intros r R. split; [reflexivity|]. split; [exact I|constructor].
  - intros r R. split; [exists 0%nat; constructor|reflexivity].
  - intros p n. cbn. destruct (negb (p =? 0) && valid p); [|discriminate]. intros Q. injection Q as <-. left. auto.
  - reflexivity.
Qed.

(** A node below a root: enough fuel exists. *)
Lemma trees_unique s T r t : inv s T -> r <> 0 -> holds s r t -> t = T r.
Proof.
  intros I R (H1 & H2 & _). destruct (I_holds s T I r R) as (G1 & G2 & _). rewrite H1 in G1. clear H1 I R. revert G1 G2 H2.
  generalize 0 at 1 2. generalize (T r). intros t2 z. revert t2 z.
  induction t as [|c l IHl x rt IHr]; intros t2 z TT G H; destruct t2 as [|c2 l2 x2 r2]; [reflexivity| | |]; cbn [top tree_at] in *.
  - destruct G as (G & _). congruence.
  - destruct H as (H & _). congruence.
  - subst x2. destruct G as (_ & (v & G1) & G2 & G3), H as (_ & (w & H1) & H2 & H3). rewrite H1 in G1.
    assert (EL : top l = top l2) by congruence. assert (ER : top rt = top r2) by congruence. assert (EC : c = c2) by congruence.
    subst c2. f_equal; [exact (IHl l2 x EL G2 H2)|exact (IHr r2 x ER G3 H3)].
Qed.

(** One call changes one tree, and only so much. *)
Lemma history_inv cmp (allow : st -> op -> Prop) valid pays h s : (forall s o, allow s o -> permitted s o) ->
  history cmp allow (start valid pays) h s -> exists T F, inv s T /\ deep T F.
Proof.
  intros AL H. induction H as [|h s o fuel s' z H IH A E1].
  - exists (fun _ => E), 2%nat. split; [apply start_inv|]. intros r R. cbn. lia.
  - destruct IH as (T & F & I & D). apply AL in A.
    assert (D' : deep T (Nat.max fuel F)) by (intros r R; specialize (D r R); lia).
    destruct (step_ok cmp (Nat.max fuel F) s T o I D' A) as (s2 & z2 & T2 & E2 & I2).
    rewrite (step_mono_ok cmp fuel (Nat.max fuel F) s o _ ltac:(lia) E1) in E2. injection E2 as <- <-.
    destruct I2 as (I2 & M). destruct (moved_deep T T2 _ M D) as (F2 & D2). eauto 10.
Qed.
