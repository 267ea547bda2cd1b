(** Proofs about the red-black trees: the reference. *)

From Coq Require Import ZArith List Bool Lia Sorting.Sorted.
From Verif Require Import CUtil TreeModel TreeSpec TreeProofs TreeProofs2 TreeProofs3 TreeProofs4 TreeProofs5 TreeProofs6 TreeProofs7 TreeProofs8.
Import ListNotations.
Local Open Scope Z_scope.

(** * Lists *)

Lemma find_first (f : Z -> bool) a q b : (forall x, In x a -> f x = false) -> f q = true -> List.find f (a ++ q :: b) = Some q.
Proof.
  intros A Q. induction a as [|x a IH]; cbn; [rewrite Q; reflexivity|]. rewrite (A x (or_introl eq_refl)). apply IH. intros y Y. apply A. right. exact Y.
Qed.
Lemma find_no (f : Z -> bool) a : (forall x, In x a -> f x = false) -> List.find f a = None.
Proof. induction a as [|x a IH]; cbn; [reflexivity|]. intros A. rewrite (A x (or_introl eq_refl)). apply IH. auto. Qed.
Lemma filter_all (f : Z -> bool) a : (forall x, In x a -> f x = true) -> filter f a = a.
Proof. induction a as [|x a IH]; cbn; [reflexivity|]. intros A. rewrite (A x (or_introl eq_refl)), IH; auto. Qed.
Lemma filter_no (f : Z -> bool) a : (forall x, In x a -> f x = false) -> filter f a = [].
Proof. induction a as [|x a IH]; cbn; [reflexivity|]. intros A. rewrite (A x (or_introl eq_refl)). apply IH. auto. Qed.
Lemma following_at p a b : ~ In p a -> following p (a ++ p :: b) = hd 0 b.
Proof.
  induction a as [|x a IH]; cbn; [rewrite Z.eqb_refl; reflexivity|]. intros A. destruct (Z.eqb_spec x p); [tauto|]. apply IH. tauto.
Qed.
Lemma hd_rev (a : list Z) : hd 0 (rev a) = List.last a 0.
Proof. destruct a as [|x a] using rev_ind; [reflexivity|]. rewrite rev_app_distr, last_last. reflexivity. Qed.
Lemma without_at p a b : ~ In p a -> ~ In p b -> without p (a ++ p :: b) = a ++ b.
Proof.
  intros A B. unfold without. rewrite filter_app. cbn. rewrite Z.eqb_refl. cbn. f_equal; apply filter_all; intros x X;
    destruct (Z.eqb_spec x p); [subst; contradiction|reflexivity|subst; contradiction|reflexivity].
Qed.
Lemma subst_no p y a : ~ In p a -> subst p y a = a.
Proof.
  unfold subst. induction a as [|x a IH]; cbn; [reflexivity|]. intros A. rewrite IH by tauto. destruct (Z.eqb_spec x p); [tauto|reflexivity].
Qed.
Lemma subst_at p y a b : ~ In p a -> ~ In p b -> subst p y (a ++ p :: b) = a ++ y :: b.
Proof.
  intros A B. unfold subst. rewrite map_app. cbn. rewrite Z.eqb_refl. fold (subst p y a). fold (subst p y b).
  rewrite (subst_no p y a A), (subst_no p y b B). reflexivity.
Qed.

(** * The relation *)

Record rel (cmp : payload -> payload -> Z) (s : st) (T : Z -> tree) (a : ref) : Prop := Rel {
  R_inv : inv s T;
  R_content : forall r, r <> 0 -> content a r = inorder (T r);
  R_none : content a 0 = [];
  R_owner : forall p, owner a p = ownerof s p;
  R_pays : forall p, isnode s p -> pays a p = payof s p;
  R_sorted : forall r, r <> 0 -> ascending cmp s (inorder (T r))
}.

Lemma pay_same s s' p : same_pays s s' -> payof s' p = payof s p.
Proof. intros H. specialize (H p). unfold get, payof in *. destruct (nodes s p), (nodes s' p); congruence. Qed.
Lemma node_same s s' p : same_pays s s' -> isnode s' p -> isnode s p.
Proof. intros H. unfold isnode. rewrite (same_none s s' p H). auto. Qed.
Lemma sorted_same cmp s s' L : (forall p, In p L -> payof s' p = payof s p) -> ascending cmp s L -> ascending cmp s' L.
Proof.
  intros H. unfold ascending. induction 1 as [|x L SS IH F]; constructor.
  - apply IH. intros p P. apply H. right. exact P.
  - rewrite Forall_forall in *. intros y Y. rewrite (H x (or_introl eq_refl)), (H y (or_intror Y)). apply F, Y.
Qed.

Lemma inv_nodup s T r : inv s T -> r <> 0 -> NoDup (inorder (T r)).
Proof. intros I R. apply I, R. Qed.

Lemma nodup_mid p (a b : list Z) : NoDup (a ++ p :: b) -> ~ In p a /\ ~ In p b.
Proof. intros H. apply NoDup_remove_2 in H. rewrite in_app_iff in H. tauto. Qed.

Lemma in_isnode s T r p : inv s T -> r <> 0 -> In p (inorder (T r)) -> isnode s p.
Proof. intros I R P. destruct (inv_in s T r p I R P) as (n & N & _). unfold isnode. congruence. Qed.

(** One tree of many changed. *)
Lemma rel_upd cmp s T a r s' t' c' o' : rel cmp s T a -> r <> 0 -> inv s' (upd T r t') -> same_pays s s' ->
  c' = inorder t' -> ascending cmp s (inorder t') -> (forall p, o' p = ownerof s' p) ->
  rel cmp s' (upd T r t') (Ref (upd (content a) r c') o' (pays a)).
Proof.
  intros [I C N O P S] R I' SP -> SO OW. constructor; cbn [content owner pays].
  - exact I'.
  - intros q Q. unfold upd. destruct (q =? r); [reflexivity|apply C, Q].
  - rewrite upd_other by congruence. exact N.
  - exact OW.
  - intros p Q. rewrite (pay_same s s' p SP). apply P. apply (node_same s s' p SP Q).
  - intros q Q. apply (sorted_same cmp s s'); [intros p _; apply pay_same, SP|]. unfold upd. destruct (q =? r); [exact SO|apply S, Q].
Qed.

Lemma keys cmp s T a r p np z : rel cmp s T a -> r <> 0 -> nodes s p = Some np -> In z (inorder (T r)) ->
  cmp (pays a z) (pays a p) = cmp (payof s z) (pay np).
Proof.
  intros H R V Z. rewrite !(R_pays cmp s T a H).
  - unfold payof at 2. rewrite V. reflexivity.
  - unfold isnode. congruence.
  - exact (in_isnode s T r z (R_inv _ _ _ _ H) R Z).
Qed.

(** A new element between the smaller and the greater ones. *)
Lemma sorted_insert cmp s A B x v : total_order cmp -> ascending cmp s (A ++ B) -> payof s x = v ->
  (forall z, In z A -> cmp (payof s z) v < 0) -> (forall z, In z B -> cmp (payof s z) v > 0) -> ascending cmp s (A ++ x :: B).
Proof.
  intros TO AS PX HA HB. apply sorted_app in AS as (S1 & S2 & S3). apply sorted_app. split; [exact S1|]. split.
  - constructor; [exact S2|]. apply Forall_forall. intros z Z. rewrite PX. apply (proj1 TO). apply HB, Z.
  - intros z y Z [<-|Y]; [rewrite PX; apply HA, Z|apply S3; assumption].
Qed.
Lemma sorted_remove cmp s A B x : ascending cmp s (A ++ x :: B) -> ascending cmp s (A ++ B).
Proof.
  intros AS. apply sorted_app in AS as (S1 & S2 & S3). apply sorted_app. split; [exact S1|]. split; [inversion S2; assumption|].
  intros z y Z Y. apply S3; [exact Z|right; exact Y].
Qed.
Lemma sorted_replace cmp s A B x y : total_order cmp -> ascending cmp s (A ++ x :: B) -> cmp (payof s x) (payof s y) = 0 ->
  ascending cmp s (A ++ y :: B).
Proof.
  intros TO AS EQ. apply (sorted_insert cmp s A B y (payof s y) TO (sorted_remove cmp s A B x AS) eq_refl).
  - intros z Z. apply sorted_app in AS as (_ & _ & S3). apply (order_lt_le cmp _ (payof s x)); [exact TO| |lia].
    apply S3; [exact Z|left; reflexivity].
  - intros z Z. apply sorted_app in AS as (_ & S2 & _). inversion S2 as [|? ? _ F]. rewrite Forall_forall in F.
    apply (proj1 TO). apply (order_le_lt cmp _ (payof s x)); [exact TO| |exact (F z Z)].
    destruct (Z_le_gt_dec (cmp (payof s y) (payof s x)) 0) as [|G]; [assumption|]. apply (proj1 TO) in G. lia.
Qed.

Lemma ref_step_replace cmp s T a q p : rel cmp s T a -> total_order cmp -> isnode s q -> isnode s p ->
  cmp (payof s q) (payof s p) = 0 ->
  exists s' T', replace s q p = Some (s', snd (ref_step cmp a (Replace q p))) /\ rel cmp s' T' (fst (ref_step cmp a (Replace q p))) /\ moved T T'.
Proof.
  intros H TO Q P EQ. pose proof (R_inv _ _ _ _ H) as I. unfold isnode in *.
  destruct (nodes s q) as [nq|] eqn:VQ; [|congruence]. destruct (nodes s p) as [np|] eqn:VP; [|congruence].
  cbn [ref_step]. rewrite !(R_owner _ _ _ _ H). unfold ownerof. rewrite VQ, VP.
  destruct (node_cases s T q nq I VQ) as [(R & _)|(R & k & c & l & rt & TR)].
  { exists s, T. rewrite R. cbn [Z.eqb orb fst snd]. split; [|auto using moved_same]. unfold replace, isorphan. rewrite (get_eq _ _ _ _ VQ), R. reflexivity. }
  destruct (Z.eqb_spec (root nq) 0); [contradiction|]. cbn [orb].
  destruct (Z.eqb_spec (root np) 0) as [R2|R2]; cbn [negb fst snd].
  2: { exists s, T. split; [|auto using moved_same]. unfold replace, isorphan. rewrite (get_eq _ _ _ _ VQ), (get_eq _ _ _ _ VP). cbn [bind].
    destruct (Z.eqb_spec (root nq) 0); [contradiction|]. destruct (Z.eqb_spec (root np) 0); [contradiction|]. reflexivity. }
  destruct (replace_at s T (root nq) k c l q rt p np I R TR VP R2) as (s' & t' & E1 & I' & IN & SP).
  exists s', (upd T (root nq) t'). split; [exact E1|]. split; [|right; eauto].
  assert (IT : inorder (T (root nq)) = (pre k ++ inorder l) ++ q :: inorder rt ++ post k).
  { rewrite TR, inorder_plug. cbn. rewrite <- !app_assoc. reflexivity. }
  pose proof (inv_nodup s T (root nq) I R) as ND. rewrite IT in ND. apply nodup_mid in ND as (ND1 & ND2).
  apply (rel_upd cmp s T a (root nq) s' t' _ _ H R I' SP).
  - rewrite (R_content _ _ _ _ H _ R), IT, IN. apply subst_at; assumption.
  - rewrite IN. apply (sorted_replace cmp s _ _ q p TO); [|exact EQ]. rewrite <- IT. apply H, R.
  - intros z. rewrite (own_after s T (root nq) s' t' z I I' R). unfold upd. rewrite (R_owner _ _ _ _ H z), IN, IT.
    assert (NP : ~ In p (inorder (T (root nq)))) by (apply (orphan_out s T _ p np I R VP R2)). rewrite IT in NP.
    destruct (Z.eqb_spec z p) as [->|NZ].
    + destruct (in_dec Z.eq_dec p _) as [_|NI]; [reflexivity|]. exfalso. apply NI, in_mid.
    + destruct (in_dec Z.eq_dec z _) as [I1|I1].
      * destruct (Z.eqb_spec z q) as [->|NQ].
        { exfalso. assert (p <> q) by congruence. rewrite in_app_iff in I1. cbn [In] in I1. tauto. }
        apply (owner_in s T (root nq) z I R). rewrite IT. rewrite !in_app_iff in *. cbn in *. rewrite !in_app_iff in *.
        destruct I1 as [I1|[I1|I1]]; auto; congruence.
      * destruct (Z.eqb_spec z q) as [->|NQ].
        { destruct (in_dec Z.eq_dec q _) as [_|NI]; [reflexivity|]. exfalso. apply NI, in_mid. }
        destruct (in_dec Z.eq_dec z _) as [I2|I2]; [|reflexivity]. exfalso. apply I1. rewrite !in_app_iff in *. cbn in *. rewrite !in_app_iff in *.
        destruct I2 as [I2|[I2|I2]]; auto; congruence.
Qed.

Lemma rel_insert cmp s T a r s' t' x np A B : rel cmp s T a -> total_order cmp -> r <> 0 -> nodes s x = Some np -> root np = 0 ->
  inv s' (upd T r t') -> same_pays s s' -> inorder t' = A ++ x :: B -> inorder (T r) = A ++ B ->
  (forall z, In z A -> cmp (payof s z) (pay np) < 0) -> (forall z, In z B -> cmp (payof s z) (pay np) > 0) ->
  let key q p := cmp (pays a q) (pays a p) in
  List.find (fun q => key q x =? 0) (content a r) = None /\
  rel cmp s' (upd T r t') (Ref (upd (content a) r (filter (fun q => key q x <? 0) (content a r) ++ x :: filter (fun q => 0 <? key q x) (content a r)))
       (upd (owner a) x r) (pays a)).
Proof.
  intros H TO R V RX I' SP IN IT HA HB key. pose proof (R_inv _ _ _ _ H) as I.
  assert (KA : forall z, In z A -> key z x < 0).
  { intros z Z. unfold key. rewrite (keys cmp s T a r x np z H R V); [apply HA, Z|]. rewrite IT. apply in_or_app. auto. }
  assert (KB : forall z, In z B -> key z x > 0).
  { intros z Z. unfold key. rewrite (keys cmp s T a r x np z H R V); [apply HB, Z|]. rewrite IT. apply in_or_app. auto. }
  rewrite (R_content _ _ _ _ H r R), IT. split.
  - apply find_no. intros z Z. apply in_app_or in Z as [Z|Z]; [apply KA in Z|apply KB in Z]; apply Z.eqb_neq; lia.
  - apply (rel_upd cmp s T a r s' t' _ _ H R I' SP).
    + rewrite IN, !filter_app.
      rewrite (filter_all _ A) by (intros z Z; apply Z.ltb_lt, KA, Z). rewrite (filter_no _ B) by (intros z Z; apply Z.ltb_ge; apply KB in Z; lia).
      rewrite (filter_no (fun q => 0 <? key q x) A) by (intros z Z; apply Z.ltb_ge; apply KA in Z; lia).
      rewrite (filter_all _ B) by (intros z Z; apply Z.ltb_lt; apply KB in Z; lia). rewrite app_nil_r. reflexivity.
    + rewrite IN. apply (sorted_insert cmp s A B x (pay np) TO); [rewrite <- IT; apply H, R|unfold payof; rewrite V; reflexivity|exact HA|exact HB].
    + intros z. rewrite (own_after s T r s' t' z I I' R). unfold upd. rewrite (R_owner _ _ _ _ H z), IN.
      destruct (Z.eqb_spec z x) as [->|NZ].
      * destruct (in_dec Z.eq_dec x _) as [_|NI]; [reflexivity|]. exfalso. apply NI, in_mid.
      * assert (EQ : In z (A ++ x :: B) <-> In z (inorder (T r))) by (rewrite IT, !in_app_iff; cbn; split; [intros [Z|[Z|Z]]; auto; congruence|tauto]).
        destruct (in_dec Z.eq_dec z _) as [I1|I1].
        { apply (owner_in s T r z I R), EQ, I1. }
        { destruct (in_dec Z.eq_dec z _) as [I2|I2]; [apply EQ in I2; contradiction|reflexivity]. }
Qed.

Lemma keyed_step cmp fuel s T a o : rel cmp s T a -> total_order cmp -> deep T fuel -> keyed cmp s o ->
  exists s' T', step cmp fuel s o = Some (s', snd (ref_step cmp a o)) /\ rel cmp s' T' (fst (ref_step cmp a o)) /\ moved T T'.
Proof.
  intros H TO D (P & K). pose proof (R_inv _ _ _ _ H) as I. destruct o; cbn [step permitted] in *; try contradiction.
  - (* insert *)
    destruct P as (R & X). pose proof X as X0. unfold isnode in X. destruct (nodes s targetp) as [np|] eqn:V; [|congruence]. clear X K.
    pose proof (R_sorted _ _ _ _ H rootp R) as AS.
    unfold search_insert_or_replace. cbn [ref_step].
    assert (NOTORPHAN : root np <> 0 -> owner a targetp =? 0 = false).
    { intros NO. rewrite (R_owner _ _ _ _ H). unfold ownerof. rewrite V. apply Z.eqb_neq, NO. }
    assert (ORPHAN : root np = 0 -> owner a targetp =? 0 = true).
    { intros NO. rewrite (R_owner _ _ _ _ H). unfold ownerof. rewrite V. apply Z.eqb_eq, NO. }
    destruct (close_at fuel s T rootp targetp np cmp I D R V) as [(TE & E1)|(q & k & c & l & rt & rc & E1 & E2 & Q & PQ & RC & RLT & RGT & SRT)];
      unfold find_close in E1; rewrite (load_eq _ _ R) in *; cbn [bind] in *; rewrite E1; cbn [bind].
    + cbn [Z.eqb]. unfold insert_root. destruct (Z.eq_dec (root np) 0) as [RX|RX].
      * destruct (insert_root_at fuel s T rootp targetp np I R TE V RX) as ((s' & t' & E3 & I' & IN & SP) & _); [specialize (D _ R); lia|].
        destruct (rel_insert cmp s T a rootp s' t' targetp np [] [] H TO R V RX I' SP IN) as (F1 & F2);
          [rewrite TE; reflexivity|intros ? []|intros ? []|].
        rewrite F1, (ORPHAN RX). cbn [fst snd]. exists s', (upd T rootp t'). split; [exact E3|]. split; [exact F2|right; eauto].
      * rewrite (R_content _ _ _ _ H _ R), TE. cbn [inorder List.find]. rewrite (NOTORPHAN RX). cbn [fst snd]. exists s, T. split; [|auto using moved_same].
        unfold insert_left_or_root, isorphan. rewrite (get_eq _ _ _ _ V). cbn [bind]. destruct (Z.eqb_spec (root np) 0); [contradiction|]. reflexivity.
    + destruct (Z.eqb_spec q 0); [contradiction|]. unfold insert_right, insert_left. destruct PQ as (nq & VQ & RQ). rewrite (get_eq _ _ _ _ VQ). cbn [bind].
      destruct (SRT TO AS) as (HPRE & HPOST).
      assert (IT : inorder (T rootp) = pre k ++ inorder l ++ q :: inorder rt ++ post k).
      { rewrite E2, inorder_plug. cbn. rewrite <- !app_assoc. reflexivity. }
      assert (HL : forall z, In z (inorder l) -> cmp (payof s z) (payof s q) < 0).
      { intros z Z. unfold ascending in AS. rewrite IT in AS. apply sorted_app in AS as (_ & AS & _). apply sorted_app in AS as (_ & _ & AS).
        apply AS; [exact Z|left; reflexivity]. }
      assert (HR : forall z, In z (inorder rt) -> cmp (payof s q) (payof s z) < 0).
      { intros z Z. unfold ascending in AS. rewrite IT in AS. apply sorted_app in AS as (_ & AS & _). apply sorted_app in AS as (_ & AS & _).
        inversion AS as [|? ? _ F]. rewrite Forall_forall in F. apply F, in_or_app. auto. }
      destruct (Z.ltb_spec rc 0) as [LT|GE]; [|destruct (Z.ltb_spec 0 rc) as [GT|LE]].
      * (* greater than the node found *)
        rewrite (RLT LT) in E2, IT. cbn [inorder app] in IT.
        assert (HA : forall z, In z (pre k ++ inorder l ++ [q]) -> cmp (payof s z) (pay np) < 0).
        { intros z Z. apply in_app_or in Z as [Z|Z]; [apply HPRE, Z|]. apply in_app_or in Z as [Z|[<-|[]]]; [|lia].
          apply (order_lt_le cmp _ (payof s q)); [exact TO|apply HL, Z|lia]. }
        assert (IT' : inorder (T rootp) = (pre k ++ inorder l ++ [q]) ++ post k) by (rewrite IT, <- !app_assoc; reflexivity).
        destruct (Z.eq_dec (root np) 0) as [RX|RX].
        -- destruct (insert_right_at fuel s T rootp k c l q targetp np (root nq) I R E2 V RX) as (s' & t' & E3 & I' & IN & SP); [specialize (D _ R); lia|].
           destruct (rel_insert cmp s T a rootp s' t' targetp np (pre k ++ inorder l ++ [q]) (post k) H TO R V RX I' SP IN IT' HA HPOST) as (F1 & F2).
           rewrite F1, (ORPHAN RX). cbn [fst snd]. exists s', (upd T rootp t'). split; [exact E3|]. split; [exact F2|right; eauto].
        -- rewrite find_no.
           ++ rewrite (NOTORPHAN RX). cbn [fst snd]. exists s, T. split; [|auto using moved_same].
              unfold insert_right_or_root, isorphan. rewrite (get_eq _ _ _ _ V). cbn [bind]. destruct (Z.eqb_spec (root np) 0); [contradiction|]. reflexivity.
           ++ intros z Z. rewrite (R_content _ _ _ _ H _ R) in Z. rewrite (keys cmp s T a rootp targetp np z H R V Z). apply Z.eqb_neq.
              rewrite IT' in Z. apply in_app_or in Z as [Z|Z]; [apply HA in Z|apply HPOST in Z]; lia.
      * (* less *)
        rewrite (RGT ltac:(lia)) in E2, IT. cbn [inorder app] in IT.
        assert (HB : forall z, In z (q :: inorder rt ++ post k) -> cmp (payof s z) (pay np) > 0).
        { intros z [<-|Z]; [lia|]. apply in_app_or in Z as [Z|Z]; [|apply HPOST, Z].
          apply (proj1 TO). apply (order_lt_le cmp _ (payof s q)); [exact TO|apply (proj1 TO); lia|]. specialize (HR z Z). lia. }
        destruct (Z.eq_dec (root np) 0) as [RX|RX].
        -- destruct (insert_left_at fuel s T rootp k c q rt targetp np (root nq) I R E2 V RX) as (s' & t' & E3 & I' & IN & SP); [specialize (D _ R); lia|].
           destruct (rel_insert cmp s T a rootp s' t' targetp np (pre k) (q :: inorder rt ++ post k) H TO R V RX I' SP IN IT HPRE HB) as (F1 & F2).
           rewrite F1, (ORPHAN RX). cbn [fst snd]. exists s', (upd T rootp t'). split; [exact E3|]. split; [exact F2|right; eauto].
        -- rewrite find_no.
           ++ rewrite (NOTORPHAN RX). cbn [fst snd]. exists s, T. split; [|auto using moved_same].
              unfold insert_left_or_root, isorphan. rewrite (get_eq _ _ _ _ V). cbn [bind]. destruct (Z.eqb_spec (root np) 0); [contradiction|]. reflexivity.
           ++ intros z Z. rewrite (R_content _ _ _ _ H _ R) in Z. rewrite (keys cmp s T a rootp targetp np z H R V Z). apply Z.eqb_neq.
              rewrite IT in Z. apply in_app_or in Z as [Z|Z]; [apply HPRE in Z|apply HB in Z]; lia.
      * (* equal *)
        assert (EQ : cmp (payof s q) (pay np) = 0) by lia.
        assert (FD : List.find (fun q0 => cmp (pays a q0) (pays a targetp) =? 0) (content a rootp) = Some q).
        { rewrite (R_content _ _ _ _ H _ R), IT, app_assoc. apply find_first.
          - intros z Z. rewrite (keys cmp s T a rootp targetp np z H R V) by (rewrite IT; apply in_app_or in Z as [Z|Z]; apply in_or_app; [auto|right; apply in_or_app; auto]).
            apply Z.eqb_neq. apply in_app_or in Z as [Z|Z]; [apply HPRE in Z; lia|]. apply HL in Z.
            pose proof (order_lt_le cmp _ _ (pay np) TO Z ltac:(lia)). lia.
          - rewrite (keys cmp s T a rootp targetp np q H R V); [apply Z.eqb_eq, EQ|]. rewrite IT. apply in_or_app. right. apply in_mid. }
        rewrite FD. destruct rep; cbn [andb].
        -- assert (IQ : In q (inorder (T rootp))) by (rewrite IT; apply in_or_app; right; apply in_mid).
           assert (PT : payof s targetp = pay np) by (unfold payof; rewrite V; reflexivity).
           destruct (ref_step_replace cmp s T a q targetp H TO) as (s' & T' & F1 & F2 & F3); [unfold isnode; congruence|unfold isnode; congruence|congruence|].
           exists s', T'. cbn [ref_step] in F1, F2.
           assert (OQ : owner a q = rootp) by (rewrite (R_owner _ _ _ _ H); apply (owner_in s T rootp q I R), IQ). rewrite OQ in F1, F2.
           destruct (Z.eqb_spec rootp 0); [contradiction|]. cbn [orb] in F1, F2.
           destruct (owner a targetp =? 0); cbn [negb] in F1, F2; auto.
        -- exists s, T. cbn [fst snd]. auto using moved_same.
  - (* remove *)
    cbn [ref_step]. destruct P as [->|P]; [exists s, T; cbn [Z.eqb orb fst snd]; auto using moved_same|].
    unfold isnode in P. destruct (nodes s nodep) as [n|] eqn:V; [|congruence]. rewrite !(R_owner _ _ _ _ H). unfold ownerof. rewrite V.
    assert (NZ : nodep <> 0) by (intros ->; rewrite (I_null s T I) in V; discriminate). destruct (Z.eqb_spec nodep 0); [contradiction|]. cbn [orb].
    destruct (node_cases s T nodep n I V) as [(R & _)|(R & k & c & l & rt & TR)].
    + rewrite R. cbn [Z.eqb fst snd]. exists s, T. split; [|auto using moved_same]. unfold remove, isorphan. unfold isleaf.
      destruct (Z.eqb_spec nodep 0); [contradiction|]. rewrite (get_eq _ _ _ _ V), R. reflexivity.
    + destruct (Z.eqb_spec (root n) 0); [contradiction|]. cbn [fst snd].
      destruct (remove_at fuel s T (root n) k c l nodep rt I R TR) as (s' & t' & E1 & I' & IN & SP); [specialize (D _ R); lia|].
      exists s', (upd T (root n) t'). split; [exact E1|]. split; [|right; eauto].
      assert (IT : inorder (T (root n)) = (pre k ++ inorder l) ++ nodep :: inorder rt ++ post k).
      { rewrite TR, inorder_plug. cbn. rewrite <- !app_assoc. reflexivity. }
      pose proof (inv_nodup s T (root n) I R) as ND. rewrite IT in ND. apply nodup_mid in ND as (ND1 & ND2).
      apply (rel_upd cmp s T a (root n) s' t' _ _ H R I' SP).
      * rewrite (R_content _ _ _ _ H _ R), IT, IN. apply without_at; assumption.
      * rewrite IN. apply (sorted_remove cmp s _ _ nodep). rewrite <- IT. apply H, R.
      * intros z. rewrite (own_after s T (root n) s' t' z I I' R). unfold upd. rewrite (R_owner _ _ _ _ H z), IN, IT.
        assert (IN1 : forall q, In q ((pre k ++ inorder l) ++ nodep :: inorder rt ++ post k) <-> q = nodep \/ In q ((pre k ++ inorder l) ++ inorder rt ++ post k)).
        { intros q. rewrite !in_app_iff. cbn. rewrite !in_app_iff. split; [intros [Z|[Z|Z]]; auto|intros [Z|[Z|Z]]; auto]. }
        assert (NI1 : ~ In nodep ((pre k ++ inorder l) ++ inorder rt ++ post k)) by (rewrite in_app_iff; tauto).
        destruct (Z.eqb_spec z nodep) as [->|NZ2].
        { destruct (in_dec Z.eq_dec nodep _) as [Y|_]; [contradiction|].
          destruct (in_dec Z.eq_dec nodep _) as [_|NI]; [reflexivity|]. exfalso. apply NI, in_mid. }
        { destruct (in_dec Z.eq_dec z _) as [Y|Y].
          - apply (owner_in s T (root n) z I R). rewrite IT. apply IN1. auto.
          - destruct (in_dec Z.eq_dec z _) as [Y2|_]; [|reflexivity]. apply IN1 in Y2 as [Y2|Y2]; contradiction. }
  - (* replace *)
    destruct P as (P1 & P2). destruct K as (x & y & X & Y & EQ). unfold get in X, Y.
    apply (ref_step_replace cmp s T a oldp newp H TO P1 P2). unfold payof. destruct (nodes s oldp), (nodes s newp); congruence.
  - (* find *)
    destruct P as (R & X). unfold isnode in X. destruct (nodes s targetp) as [np|] eqn:V; [|congruence]. clear X K. cbn [ref_step fst snd].
    pose proof (R_sorted _ _ _ _ H rootp R) as AS. exists s, T. split; [|auto using moved_same]. unfold find.
    destruct (close_at fuel s T rootp targetp np cmp I D R V) as [(TE & E1)|(q & k & c & l & rt & rc & E1 & E2 & Q & PQ & RC & RLT & RGT & SRT)]; rewrite E1; cbn [bind].
    + rewrite (R_content _ _ _ _ H _ R), TE. reflexivity.
    + destruct (SRT TO AS) as (HPRE & HPOST).
      assert (IT : inorder (T rootp) = pre k ++ inorder l ++ q :: inorder rt ++ post k).
      { rewrite E2, inorder_plug. cbn. rewrite <- !app_assoc. reflexivity. }
      assert (HL : forall z, In z (inorder l) -> cmp (payof s z) (payof s q) < 0).
      { intros z Z. unfold ascending in AS. rewrite IT in AS. apply sorted_app in AS as (_ & AS & _). apply sorted_app in AS as (_ & _ & AS).
        apply AS; [exact Z|left; reflexivity]. }
      assert (HR : forall z, In z (inorder rt) -> cmp (payof s q) (payof s z) < 0).
      { intros z Z. unfold ascending in AS. rewrite IT in AS. apply sorted_app in AS as (_ & AS & _). apply sorted_app in AS as (_ & AS & _).
        inversion AS as [|? ? _ F]. rewrite Forall_forall in F. apply F, in_or_app. auto. }
      assert (EQL : rc <= 0 -> forall z, In z (inorder l) -> cmp (payof s z) (pay np) < 0).
      { intros LE z Z. apply (order_lt_le cmp _ (payof s q)); [exact TO|apply HL, Z|lia]. }
      assert (EQR : rc >= 0 -> forall z, In z (inorder rt) -> cmp (payof s z) (pay np) > 0).
      { intros GE z Z. apply (proj1 TO). apply (order_le_lt cmp _ (payof s q)); [exact TO| |apply HR, Z].
        destruct (Z_le_gt_dec (cmp (pay np) (payof s q)) 0) as [|G]; [assumption|]. apply (proj1 TO) in G. lia. }
      destruct (Z.eqb_spec rc 0) as [RZ|RZ].
      * rewrite (R_content _ _ _ _ H _ R), IT, app_assoc, find_first; [reflexivity| |].
        -- intros z Z. rewrite (keys cmp s T a rootp targetp np z H R V) by (rewrite IT; apply in_app_or in Z as [Z|Z]; apply in_or_app; [auto|right; apply in_or_app; auto]).
           apply Z.eqb_neq. apply in_app_or in Z as [Z|Z]; [apply HPRE in Z; lia|]. specialize (EQL ltac:(lia) z Z). lia.
        -- rewrite (keys cmp s T a rootp targetp np q H R V); [apply Z.eqb_eq; lia|]. rewrite IT. apply in_or_app. right. apply in_mid.
      * rewrite find_no; [reflexivity|]. intros z Z. rewrite (R_content _ _ _ _ H _ R) in Z. rewrite (keys cmp s T a rootp targetp np z H R V Z).
        apply Z.eqb_neq. rewrite IT in Z. apply in_app_or in Z as [Z|Z]; [apply HPRE in Z; lia|]. apply in_app_or in Z as [Z|[<-|Z]]; [|lia|apply in_app_or in Z as [Z|Z]].
        -- destruct (Z_le_gt_dec rc 0) as [LE|GT]; [specialize (EQL LE z Z); lia|]. rewrite (RGT GT) in Z. destruct Z.
        -- destruct (Z_ge_lt_dec rc 0) as [GE|LT]; [specialize (EQR GE z Z); lia|]. rewrite (RLT LT) in Z. destruct Z.
        -- apply HPOST in Z. lia.
  - cbn [ref_step fst snd]. exists s, T. rewrite (first_at fuel s rootp (T rootp) (inv_whole s T rootp I P)) by (specialize (D _ P); lia). cbn [bind].
    rewrite (R_content _ _ _ _ H _ P). auto using moved_same.
  - cbn [ref_step fst snd]. exists s, T. rewrite (last_at fuel s rootp (T rootp) (inv_whole s T rootp I P)) by (specialize (D _ P); lia). cbn [bind].
    rewrite (R_content _ _ _ _ H _ P). auto using moved_same.
  - unfold isnode in P. destruct (nodes s nodep) as [n|] eqn:V; [|congruence]. cbn [ref_step fst snd]. exists s, T. split; [|auto using moved_same].
    rewrite (R_owner _ _ _ _ H). unfold ownerof. rewrite V.
    destruct (node_cases s T nodep n I V) as [(R & _)|(R & k & c & l & rt & TR)].
    + unfold next, isorphan. rewrite (get_eq _ _ _ _ V), R, (R_none _ _ _ _ H). reflexivity.
    + pose proof (inv_whole s T (root n) I R) as W. specialize (D _ R). rewrite TR in W, D. rewrite (next_at fuel s (root n) k c l nodep rt R W) by lia. cbn [bind].
      assert (IT : inorder (T (root n)) = (pre k ++ inorder l) ++ nodep :: inorder rt ++ post k).
      { rewrite TR, inorder_plug. cbn. rewrite <- !app_assoc. reflexivity. }
      pose proof (inv_nodup s T (root n) I R) as ND. rewrite IT in ND. apply nodup_mid in ND as (ND1 & ND2).
      rewrite (R_content _ _ _ _ H _ R), IT, following_at by exact ND1. reflexivity.
  - unfold isnode in P. destruct (nodes s nodep) as [n|] eqn:V; [|congruence]. cbn [ref_step fst snd]. exists s, T. split; [|auto using moved_same].
    rewrite (R_owner _ _ _ _ H). unfold ownerof. rewrite V.
    destruct (node_cases s T nodep n I V) as [(R & _)|(R & k & c & l & rt & TR)].
    + unfold prev, isorphan. rewrite (get_eq _ _ _ _ V), R, (R_none _ _ _ _ H). reflexivity.
    + pose proof (inv_whole s T (root n) I R) as W. specialize (D _ R). rewrite TR in W, D. rewrite (prev_at fuel s (root n) k c l nodep rt R W) by lia. cbn [bind].
      assert (IT : inorder (T (root n)) = (pre k ++ inorder l) ++ nodep :: inorder rt ++ post k).
      { rewrite TR, inorder_plug. cbn. rewrite <- !app_assoc. reflexivity. }
      pose proof (inv_nodup s T (root n) I R) as ND. rewrite IT in ND. apply nodup_mid in ND as (ND1 & ND2).
      rewrite (R_content _ _ _ _ H _ R), IT, rev_app_distr. cbn [rev]. rewrite <- app_assoc. cbn [app].
      rewrite following_at by (rewrite <- in_rev; exact ND2). rewrite hd_rev. reflexivity.
  - cbn [ref_step fst snd]. exists s, T. rewrite (audit_at fuel s rootp (T rootp) (inv_whole s T rootp I P) (I_rb s T I rootp P)) by (specialize (D _ P); lia).
    auto using moved_same.
  - cbn [ref_step fst snd]. exists s, T. split; [|auto using moved_same]. unfold isempty. rewrite (load_eq _ _ P). cbn [bind].
    pose proof (inv_whole s T rootp I P) as W. destruct (root_at _ _ _ W) as (_ & RT). rewrite RT, (R_content _ _ _ _ H _ P).
    destruct (T rootp) as [|c l x rt] eqn:TR; [reflexivity|]. destruct (node_at _ _ [] c l x rt W) as (X & _). cbn [top]. destruct (Z.eqb_spec x 0); [contradiction|].
    cbn [inorder]. destruct (inorder l); reflexivity.
  - (* init *)
    pose proof P as P0. destruct (step_ok cmp fuel s T (Init nodep) I D P) as (s' & z & T' & E1 & I' & M).
    destruct P as (n & V & R). unfold init. cbn [step] in E1. unfold init in E1. rewrite (change_eq _ _ _ _ V) in *. cbn [bind ref_step fst snd] in *.
    injection E1 as <- <-. set (s' := put s nodep _) in *. exists s', T. split; [reflexivity|]. split; [|auto using moved_same].
    assert (SP : same_pays s s') by (intros p; unfold s', get; destruct (Z.eq_dec p nodep) as [->|NE]; [rewrite put_same, V; reflexivity|rewrite put_other by exact NE; reflexivity]).
    assert (OW : forall p, ownerof s' p = ownerof s p).
    { intros p. unfold s', ownerof. destruct (Z.eq_dec p nodep) as [->|NE]; [rewrite put_same, V, R; reflexivity|rewrite put_other by exact NE; reflexivity]. }
    destruct H as [H1 H2 H3 H4 H5 H6]. constructor; auto.
    + constructor; [|apply I| |].
      * intros r RZ. destruct (I_holds s T I r RZ) as (G1 & G2 & G3). split; [exact G1|]. split; [|exact G3]. apply (tree_agree s); [|exact G2].
        intros q Q. apply put_other. intros ->. destruct (tree_node s r 0 (T r) nodep G2 Q) as (n' & N' & R' & _). congruence.
      * intros p n' N'. unfold s' in N'. destruct (Z.eq_dec p nodep) as [->|NE]; [rewrite put_same in N'; injection N' as <-; left; auto|].
        rewrite put_other in N' by exact NE. apply (I_node s T I p n' N').
      * rewrite <- (same_none s s' 0 SP). apply I.
    + intros p. rewrite OW. apply H4.
    + intros p Q. rewrite (pay_same s s' p SP). apply H5, (node_same s s' p SP Q).
    + intros r RZ. apply (sorted_same cmp s s'); [intros p _; apply pay_same, SP|apply H6, RZ].
  - (* store *)
    destruct P as (n & V & R). rewrite (change_eq _ _ _ _ V). cbn [bind ref_step fst snd]. set (s' := put s nodep _). exists s', T. split; [reflexivity|]. split; [|auto using moved_same].
    assert (EN : error n = false) by (destruct (I_node s T I nodep n V) as [(_ & Q)|(Q & _)]; [exact Q|contradiction]).
    assert (OW : forall p, ownerof s' p = ownerof s p).
    { intros p. unfold s', ownerof. destruct (Z.eq_dec p nodep) as [->|NE]; [rewrite put_same, V; reflexivity|rewrite put_other by exact NE; reflexivity]. }
    assert (OUT : forall r, r <> 0 -> ~ In nodep (inorder (T r))) by (intros r RZ; apply (orphan_out s T r nodep n I RZ V R)).
    destruct H as [H1 H2 H3 H4 H5 H6]. constructor; auto.
    + constructor; [|apply I| |].
      * intros r RZ. destruct (I_holds s T I r RZ) as (G1 & G2 & G3). split; [exact G1|]. split; [|exact G3]. apply (tree_agree s); [|exact G2].
        intros q Q. apply put_other. intros ->. exact (OUT r RZ Q).
      * intros p n' N'. unfold s' in N'. destruct (Z.eq_dec p nodep) as [->|NE]; [rewrite put_same in N'; injection N' as <-; left; auto|].
        rewrite put_other in N' by exact NE. apply (I_node s T I p n' N').
      * unfold s'. rewrite put_other; [apply I|]. intros <-. rewrite (I_null s T I) in V. discriminate.
    + intros p. rewrite OW. apply H4.
    + intros p Q. cbn [pays]. unfold upd, payof, s'. destruct (Z.eqb_spec p nodep) as [->|NE]; [rewrite put_same; reflexivity|].
      rewrite put_other by exact NE. apply H5. unfold isnode, s' in *. rewrite put_other in Q by exact NE. exact Q.
    + intros r RZ. apply (sorted_same cmp s s'); [|apply H6, RZ]. intros p Q. unfold payof, s'. rewrite put_other; [reflexivity|]. intros ->. exact (OUT r RZ Q).
Qed.

Lemma start_rel cmp valid pays : rel cmp (start valid pays) (fun _ => E) (ref0 pays).
Proof.
  constructor; try reflexivity.
  - apply start_inv.
  - intros p. unfold ownerof. cbn. destruct (negb (p =? 0) && valid p); reflexivity.
  - intros p Q. unfold isnode, payof in *. cbn in *. destruct (negb (p =? 0) && valid p); [reflexivity|congruence].
  - intros r R. constructor.
Qed.

Lemma ref_run_snoc cmp l : forall a o, ref_run cmp a (l ++ [o]) =
  let '(a1, zs) := ref_run cmp a l in let '(a2, z) := ref_step cmp a1 o in (a2, zs ++ [z]).
Proof.
  induction l as [|x l IH]; intros a o; cbn [app ref_run].
  - destruct (ref_step cmp a o); reflexivity.
  - destruct (ref_step cmp a x) as (a1 & z1). rewrite IH. destruct (ref_run cmp a1 l) as (a2 & zs). destruct (ref_step cmp a2 o). reflexivity.
Qed.

Lemma history_rel cmp valid pays h s : total_order cmp -> history cmp (keyed cmp) (start valid pays) h s ->
  exists T F, deep T F /\ rel cmp s T (fst (ref_run cmp (ref0 pays) (map fst h))) /\ map snd h = snd (ref_run cmp (ref0 pays) (map fst h)).
Proof.
  intros TO H. induction H as [|h s o fuel s' z H IH A E1].
  - exists (fun _ => E), 2%nat. split; [intros r R; cbn; lia|]. split; [apply start_rel|reflexivity].
  - destruct IH as (T & F & D & RL & RS).
    assert (D' : deep T (Nat.max fuel F)) by (intros r R; specialize (D r R); lia).
    rewrite !map_app. cbn [map fst snd]. rewrite ref_run_snoc. destruct (ref_run cmp (ref0 pays) (map fst h)) as (a & zs). cbn [fst snd] in *.
    destruct (keyed_step cmp (Nat.max fuel F) s T a o RL TO D' A) as (s2 & T2 & E2 & R2 & M).
    rewrite (step_mono_ok cmp fuel (Nat.max fuel F) s o _ ltac:(lia) E1) in E2. injection E2 as <- Z0. subst z.
    destruct (ref_step cmp a o) as (a2 & z2). cbn [fst snd] in *. destruct (moved_deep T T2 _ M D) as (F2 & D2).
    exists T2, F2. split; [exact D2|]. split; [exact R2|]. rewrite RS. reflexivity.
Qed.

(** * The history and the reference *)

Lemma note_ext m m' e : (forall p, m p = m' p) -> forall p, note m e p = note m' e p.
Proof. intros H p. destruct e as ([] & z); cbn [note]; try apply H; destruct (z =? 0); try apply H; unfold upd; rewrite ?H; reflexivity. Qed.

Lemma owned_node s T a cmp q : rel cmp s T a -> owner a q <> 0 -> q <> 0.
Proof. intros H Q ->. apply Q. rewrite (R_owner _ _ _ _ H). unfold ownerof. rewrite (I_null s T (R_inv _ _ _ _ H)). reflexivity. Qed.

Lemma found_node s T a cmp r f q : rel cmp s T a -> r <> 0 -> List.find f (content a r) = Some q -> In q (content a r) /\ f q = true /\ q <> 0.
Proof.
  intros H R Q. apply find_some in Q as (Q1 & Q2). split; [exact Q1|]. split; [exact Q2|]. intros ->. rewrite (R_content _ _ _ _ H _ R) in Q1.
  destruct (inv_in s T r 0 (R_inv _ _ _ _ H) R Q1) as (n & N & _). rewrite (I_null s T (R_inv _ _ _ _ H)) in N. discriminate.
Qed.

Lemma ref_note cmp s T a o : rel cmp s T a -> keyed cmp s o ->
  (forall p, owner (fst (ref_step cmp a o)) p = note (owner a) (o, snd (ref_step cmp a o)) p) /\
  (forall p, pays (fst (ref_step cmp a o)) p = note_pay (pays a) (o, snd (ref_step cmp a o)) p).
Proof.
  intros H (P & K). destruct o; cbn [ref_step note note_pay permitted] in *; try (split; reflexivity); try contradiction.
  - destruct P as (R & X). assert (NZ : targetp <> 0) by (intros ->; unfold isnode in X; rewrite (I_null s T (R_inv _ _ _ _ H)) in X; congruence).
    destruct (List.find _ _) as [q|] eqn:FD.
    + destruct (found_node _ _ _ _ _ _ _ H R FD) as (_ & _ & Q). destruct (rep && (owner a targetp =? 0)); cbn [fst snd owner pays Z.eqb]; [|auto].
      destruct (Z.eqb_spec q 0); [contradiction|]. auto.
    + destruct (owner a targetp =? 0); cbn [fst snd owner pays Z.eqb]; [|auto]. destruct (Z.eqb_spec targetp 0); [contradiction|].
      split; [|reflexivity]. intros p. unfold upd. destruct (p =? targetp); reflexivity.
  - destruct (Z.eqb_spec nodep 0) as [->|NZ]; cbn [orb]; [cbn; auto|]. destruct (owner a nodep =? 0); cbn [fst snd owner pays Z.eqb]; [auto|].
    destruct (Z.eqb_spec nodep 0); [contradiction|]. auto.
  - destruct (Z.eqb_spec (owner a oldp) 0) as [Q|Q]; cbn [orb]; [cbn; auto|]. destruct (owner a newp =? 0); cbn [negb fst snd owner pays Z.eqb]; [|auto].
    pose proof (owned_node _ _ _ _ _ H Q). destruct (Z.eqb_spec oldp 0); [contradiction|]. auto.
Qed.

Lemma history_all cmp valid ps h s : total_order cmp -> history cmp (keyed cmp) (start valid ps) h s ->
  exists T F a, deep T F /\ rel cmp s T a /\ a = fst (ref_run cmp (ref0 ps) (map fst h)) /\ map snd h = snd (ref_run cmp (ref0 ps) (map fst h)) /\
    (forall p, owner a p = placed h p) /\ (forall p, pays a p = stored ps h p).
Proof.
  intros TO H. induction H as [|h s o fuel s' z H IH A E1].
  - exists (fun _ => E), 2%nat, (ref0 ps). split; [intros r R; cbn; lia|]. split; [apply start_rel|]. split; [reflexivity|]. split; [reflexivity|].
    split; reflexivity.
  - destruct IH as (T & F & a & D & RL & EA & RS & OW & PY).
    assert (D' : deep T (Nat.max fuel F)) by (intros r R; specialize (D r R); lia).
    destruct (ref_note cmp s T a o RL A) as (NO & NP).
    rewrite !map_app. cbn [map fst snd]. rewrite ref_run_snoc. destruct (ref_run cmp (ref0 ps) (map fst h)) as (a0 & zs). cbn [fst snd] in *. subst a0.
    destruct (keyed_step cmp (Nat.max fuel F) s T a o RL TO D' A) as (s2 & T2 & E2 & R2 & M).
    rewrite (step_mono_ok cmp fuel (Nat.max fuel F) s o _ ltac:(lia) E1) in E2. injection E2 as <- Z0. subst z.
    destruct (ref_step cmp a o) as (a2 & z2). cbn [fst snd] in *. destruct (moved_deep T T2 _ M D) as (F2 & D2).
    exists T2, F2, a2. split; [exact D2|]. split; [exact R2|]. split; [reflexivity|]. split; [rewrite RS; reflexivity|].
    unfold placed, stored. rewrite !fold_left_app. cbn [fold_left]. split.
    + intros p. rewrite NO. apply note_ext. exact OW.
    + intros p. rewrite NP. destruct o; cbn [note_pay]; try apply PY. unfold upd. destruct (p =? nodep); [reflexivity|apply PY].
Qed.

Lemma suffices_deep s T fuel : inv s T -> suffices s fuel -> deep T fuel.
Proof.
  intros I H r R. specialize (H r (T r) R (I_holds s T I r R)). pose proof (balanced_depth (T r) (I_rb s T I r R)). lia.
Qed.

(** * Comparators *)

Lemma strcmp_anti : forall a b, compare_strings a b = - compare_strings b a.
Proof.
  induction a as [|x a IH]; intros [|y b]; cbn; try lia. rewrite (Z.eqb_sym y x). destruct (Z.eqb_spec x y); [apply IH|lia].
Qed.
Lemma strcmp_eq : forall a b, text a -> text b -> compare_strings a b = 0 <-> a = b.
Proof.
  induction a as [|x a IH]; intros [|y b] TA TB; cbn; [tauto| | |].
  - inversion TB; subst. split; [lia|discriminate].
  - inversion TA; subst. split; [lia|discriminate].
  - inversion TA; subst. inversion TB; subst. destruct (Z.eqb_spec x y) as [->|NE].
    + rewrite IH by assumption. split; congruence.
    + split; [lia|]. intros Q. injection Q as Q _. congruence.
Qed.
Lemma strcmp_trans : forall a b c, text a -> text b -> text c -> compare_strings a b <= 0 -> compare_strings b c <= 0 -> compare_strings a c <= 0.
Proof.
  induction a as [|x a IH]; intros [|y b] [|z c] TA TB TC; cbn; try lia.
  - intros _ _. inversion TC; subst. lia.
  - inversion TA; subst. lia.
  - intros _. inversion TB; subst. lia.
  - inversion TA; inversion TB; inversion TC; subst. destruct (Z.eqb_spec x y), (Z.eqb_spec y z), (Z.eqb_spec x z); try lia.
    apply IH; assumption.
Qed.

Lemma split_unique (p : Z) : forall A A2 B B2, ~ In p A -> ~ In p A2 -> A ++ p :: B = A2 ++ p :: B2 -> A = A2 /\ B = B2.
Proof.
  induction A as [|y A IH]; intros [|y2 A2] B B2 N1 N2 EQ; cbn in *; [injection EQ as ->; auto|injection EQ as <- _; tauto|injection EQ as -> _; tauto|].
  injection EQ as -> EQ. destruct (IH A2 B B2 ltac:(tauto) ltac:(tauto) EQ) as (-> & ->). auto.
Qed.

Lemma strcmp_before : forall a b, text a -> text b -> compare_strings a b < 0 <-> before a b.
Proof.
  induction a as [|x a IH]; intros [|y b] TA TB; cbn [compare_strings].
  - split; [lia|]. intros (c & [(z & r & E & F)|(z & ra & w & rb & E & F & _)]); destruct c; discriminate.
  - apply Forall_inv in TB. split; [|lia]. intros _. exists []. left. exists y, b. auto.
  - apply Forall_inv in TA. split; [lia|]. intros (c & [(z & r & E & F)|(z & ra & w & rb & E & F & _)]); destruct c; discriminate.
  - apply Forall_inv_tail in TA as TA'. apply Forall_inv_tail in TB as TB'. destruct (Z.eqb_spec x y) as [->|NE].
    + rewrite (IH b TA' TB'). split.
      * intros (c & H). exists (y :: c). destruct H as [(z & r & -> & ->)|(z & ra & w & rb & -> & -> & L)]; [left; exists z, r; auto|right; exists z, ra, w, rb; auto].
      * intros ([|u c] & [(z & r & E & F)|(z & ra & w & rb & E & F & L)]); cbn in *.
        -- discriminate.
        -- exfalso. injection E as <- _. injection F as <- _. lia.
        -- injection E as -> E. injection F as F. exists c. left. exists z, r. auto.
        -- injection E as -> E. injection F as F. exists c. right. exists z, ra, w, rb. auto.
    + split.
      * intros L. exists []. right. exists x, a, y, b. cbn. split; [reflexivity|]. split; [reflexivity|lia].
      * intros ([|u c] & [(z & r & E & F)|(z & ra & w & rb & E & F & L)]); cbn in *.
        -- discriminate.
        -- injection E as <- _. injection F as <- _. lia.
        -- congruence.
        -- congruence.
Qed.
