(** Proofs about the red-black trees: depth, traversal, search, audit, and that a call
    that ends has one result. *)

From Coq Require Import ZArith List Bool Lia Sorting.Permutation Sorting.Sorted.
From Verif Require Import CUtil TreeModel TreeSpec TreeProofs TreeProofs2 TreeProofs3 TreeProofs4 TreeProofs5 TreeProofs6.
Import ListNotations.
Local Open Scope Z_scope.

(** * Depth *)

Lemma rb_size t n : redblack t n -> (2 ^ n <= length (inorder t) + 1)%nat.
Proof.
  induction 1 as [|l x r n L IHl R IHr BL BR|l x r n L IHl R IHr]; cbn [inorder]; rewrite ?app_length; cbn [length Nat.pow]; lia.
Qed.
Lemma rb_depth t n : redblack t n -> (depth t <= 2 * n + (if isb t then 0 else 1))%nat.
Proof.
  induction 1 as [|l x r n L IHl R IHr BL BR|l x r n L IHl R IHr]; cbn [depth isb]; [lia| |].
  - rewrite BL in IHl. rewrite BR in IHr. cbn. lia.
  - destruct (isb l), (isb r); cbn; lia.
Qed.
Lemma balanced_depth t : balanced t -> (depth t <= 2 * Nat.log2 (length (inorder t) + 1))%nat.
Proof.
  intros ((n & RB) & B). pose proof (rb_size t n RB) as H1. pose proof (rb_depth t n RB) as H2. rewrite B in H2.
  assert (n <= Nat.log2 (length (inorder t) + 1))%nat; [|lia].
  apply Nat.log2_le_pow2; lia.
Qed.

(** * Traversal *)

Lemma leftmost_hd fuel s r par t : (depth t <= fuel)%nat -> t <> E -> tree_at s r par t ->
  leftmost fuel s (top t) = Some (hd 0 (inorder t)).
Proof.
  intros F NE T. destruct (leftmost_ok fuel t s r par F NE T) as (k & c & m & rr & E1 & E2 & G).
  rewrite E1, E2, inorder_plug, (pre_left k G). reflexivity.
Qed.
Lemma rightmost_last fuel s r par t : (depth t <= fuel)%nat -> t <> E -> tree_at s r par t ->
  rightmost fuel s (top t) = Some (List.last (inorder t) 0).
Proof.
  intros F NE T. destruct (rightmost_ok fuel t s r par F NE T) as (k & c & m & ll & E1 & E2 & G).
  rewrite E1, E2, inorder_plug, (post_right k G). cbn [inorder]. rewrite app_nil_r, app_assoc, last_last. reflexivity.
Qed.

Lemma climb_right_ok fuel : forall k s r t, (length k < fuel)%nat -> t <> E -> whole s r [] (plug k t) ->
  climb_right fuel s (top t) = Some (hd 0 (post k)).
Proof.
  induction fuel as [|fuel IH]; intros k s r t F NE W; [lia|]. destruct t as [|c l x rt]; [contradiction|].
  cbn [climb_right top]. destruct (node_at _ _ k c l x rt W) as (X & v & V). rewrite (get_eq _ _ _ _ V). cbn [parent bind].
  destruct k as [|[c1 p r1|c1 l1 p] k]; cbn [ctop length] in *.
  - reflexivity.
  - destruct (node_at _ _ k c1 (N c l x rt) p r1 W) as (P & w & VP). unfold isleaf. destruct (Z.eqb_spec p 0); [contradiction|].
    rewrite (get_eq _ _ _ _ VP). cbn [right bind].
    destruct (Z.eqb_spec x (top r1)) as [Q|_]; [exfalso; refine (proj1 (child_other s r k _ _ _ _ x W X) _ (eq_sym Q)); apply in_mid|].
    reflexivity.
  - destruct (node_at _ _ k c1 l1 p (N c l x rt) W) as (P & w & VP). unfold isleaf. destruct (Z.eqb_spec p 0); [contradiction|].
    rewrite (get_eq _ _ _ _ VP). cbn [right bind top]. rewrite Z.eqb_refl. cbn [post].
    apply (IH k s r (N c1 l1 p (N c l x rt))); [lia|discriminate|exact W].
Qed.
Lemma climb_left_ok fuel : forall k s r t, (length k < fuel)%nat -> t <> E -> whole s r [] (plug k t) ->
  climb_left fuel s (top t) = Some (List.last (pre k) 0).
Proof.
  induction fuel as [|fuel IH]; intros k s r t F NE W; [lia|]. destruct t as [|c l x rt]; [contradiction|].
  cbn [climb_left top]. destruct (node_at _ _ k c l x rt W) as (X & v & V). rewrite (get_eq _ _ _ _ V). cbn [parent bind].
  destruct k as [|[c1 p r1|c1 l1 p] k]; cbn [ctop length] in *.
  - reflexivity.
  - destruct (node_at _ _ k c1 (N c l x rt) p r1 W) as (P & w & VP). unfold isleaf. destruct (Z.eqb_spec p 0); [contradiction|].
    rewrite (get_eq _ _ _ _ VP). cbn [left bind top]. rewrite Z.eqb_refl. cbn [pre].
    apply (IH k s r (N c1 (N c l x rt) p r1)); [lia|discriminate|exact W].
  - destruct (node_at _ _ k c1 l1 p (N c l x rt) W) as (P & w & VP). unfold isleaf. destruct (Z.eqb_spec p 0); [contradiction|].
    rewrite (get_eq _ _ _ _ VP). cbn [left bind].
    destruct (Z.eqb_spec x (top l1)) as [Q|_]; [exfalso; refine (proj2 (child_other s r k _ _ _ _ x W X) _ (eq_sym Q)); apply in_mid|].
    cbn [pre]. rewrite app_assoc, last_last. reflexivity.
Qed.

Lemma hd_app (a b : list Z) : a <> [] -> hd 0 (a ++ b) = hd 0 a.
Proof. destruct a; [contradiction|reflexivity]. Qed.
Lemma last_app (a b : list Z) : b <> [] -> List.last (a ++ b) 0 = List.last b 0.
Proof.
  intros H. destruct (exists_last H) as (b' & x & ->). rewrite app_assoc, !last_last. reflexivity.
Qed.
Lemma inorder_nil t : inorder t = [] -> t = E.
Proof. destruct t as [|c l x rt]; [reflexivity|]. cbn. intros H. destruct (app_eq_nil _ _ H). discriminate. Qed.

Lemma next_at fuel s r k c l x rt : r <> 0 -> whole s r [] (plug k (N c l x rt)) -> (depth (plug k (N c l x rt)) <= fuel)%nat ->
  next fuel s x = Some (hd 0 (inorder rt ++ post k)).
Proof.
  intros R W F. pose proof (depth_plug k (N c l x rt)) as D. cbn [depth] in D.
  unfold next, isorphan. destruct (node_at _ _ k c l x rt W) as (X & v & V). rewrite !(get_eq _ _ _ _ V). cbn [root right bind].
  destruct (Z.eqb_spec r 0); [contradiction|]. unfold isleaf. destruct (Z.eqb_spec (top rt) 0) as [Z0|NZ]; cbn [negb].
  - apply (top_zero s r x) in Z0; [|exact (subtree_at s r (FR c l x :: k) rt W)]. subst rt. cbn.
    apply (climb_right_ok fuel k s r (N c l x E)); [lia|discriminate|exact W].
  - assert (NE : rt <> E) by (intros ->; apply NZ; reflexivity).
    rewrite (leftmost_hd fuel s r x rt); [|lia|exact NE|exact (subtree_at s r (FR c l x :: k) rt W)].
    rewrite hd_app by (intros H; apply NE, inorder_nil, H). reflexivity.
Qed.
Lemma prev_at fuel s r k c l x rt : r <> 0 -> whole s r [] (plug k (N c l x rt)) -> (depth (plug k (N c l x rt)) <= fuel)%nat ->
  prev fuel s x = Some (List.last (pre k ++ inorder l) 0).
Proof.
  intros R W F. pose proof (depth_plug k (N c l x rt)) as D. cbn [depth] in D.
  unfold prev, isorphan. destruct (node_at _ _ k c l x rt W) as (X & v & V). rewrite !(get_eq _ _ _ _ V). cbn [root left bind].
  destruct (Z.eqb_spec r 0); [contradiction|]. unfold isleaf. destruct (Z.eqb_spec (top l) 0) as [Z0|NZ]; cbn [negb].
  - apply (top_zero s r x) in Z0; [|exact (subtree_at s r (FL c x rt :: k) l W)]. subst l. cbn. rewrite app_nil_r.
    apply (climb_left_ok fuel k s r (N c E x rt)); [lia|discriminate|exact W].
  - assert (NE : l <> E) by (intros ->; apply NZ; reflexivity).
    rewrite (rightmost_last fuel s r x l); [|lia|exact NE|exact (subtree_at s r (FL c x rt :: k) l W)].
    rewrite last_app by (intros H; apply NE, inorder_nil, H). reflexivity.
Qed.

Lemma first_at fuel s r t : whole s r [] t -> (depth t <= fuel)%nat -> first fuel s r = Some (hd 0 (inorder t)).
Proof.
  intros W F. unfold first. destruct (root_at _ _ _ W) as (R & Q). rewrite (load_eq _ _ R), Q. cbn [bind].
  destruct t as [|c l x rt]; [reflexivity|]. destruct (node_at _ _ [] c l x rt W) as (X & _). unfold isleaf. cbn [top].
  destruct (Z.eqb_spec x 0); [contradiction|]. apply (leftmost_hd fuel s r 0 (N c l x rt)); [exact F|discriminate|apply W].
Qed.
Lemma last_at fuel s r t : whole s r [] t -> (depth t <= fuel)%nat -> last fuel s r = Some (List.last (inorder t) 0).
Proof.
  intros W F. unfold last. destruct (root_at _ _ _ W) as (R & Q). rewrite (load_eq _ _ R), Q. cbn [bind].
  destruct t as [|c l x rt]; [reflexivity|]. destruct (node_at _ _ [] c l x rt W) as (X & _). unfold isleaf. cbn [top].
  destruct (Z.eqb_spec x 0); [contradiction|]. apply (rightmost_last fuel s r 0 (N c l x rt)); [exact F|discriminate|apply W].
Qed.

(** * Search *)


Lemma order_lt_le cmp a b c : total_order cmp -> cmp a b < 0 -> cmp b c <= 0 -> cmp a c < 0.
Proof.
  intros (A & T) H1 H2. destruct (Z_lt_ge_dec (cmp a c) 0) as [|G]; [assumption|exfalso].
  assert (cmp c a <= 0) by (destruct (Z_le_gt_dec (cmp c a) 0) as [|G']; [assumption|apply A in G'; lia]).
  pose proof (T b c a H2 H). apply A in H1. lia.
Qed.
Lemma order_le_lt cmp a b c : total_order cmp -> cmp a b <= 0 -> cmp b c < 0 -> cmp a c < 0.
Proof.
  intros (A & T) H1 H2. destruct (Z_lt_ge_dec (cmp a c) 0) as [|G]; [assumption|exfalso].
  assert (cmp c a <= 0) by (destruct (Z_le_gt_dec (cmp c a) 0) as [|G']; [assumption|apply A in G'; lia]).
  pose proof (T c a b H H1). apply A in H2. lia.
Qed.

Lemma order_gt_le cmp a b c : total_order cmp -> cmp a b > 0 -> cmp c b <= 0 -> cmp a c > 0.
Proof. intros O H1 H2. apply (proj1 O). apply (order_le_lt cmp c b a O H2). apply (proj1 O). exact H1. Qed.

Lemma sorted_app {A} (R : A -> A -> Prop) l1 l2 : StronglySorted R (l1 ++ l2) <->
  StronglySorted R l1 /\ StronglySorted R l2 /\ (forall a b, In a l1 -> In b l2 -> R a b).
Proof.
  induction l1 as [|x l1 IH]; cbn.
  - split; [intros H; split; [constructor|]; split; [exact H|intros a b []]|intros (_ & H & _); exact H].
  - split.
    + intros H. inversion H as [|? ? H1 H2]; subst. apply IH in H1 as (H3 & H4 & H5). rewrite Forall_app, !Forall_forall in H2.
      split; [constructor; [exact H3|apply Forall_forall, H2]|]. split; [exact H4|]. intros a b [<-|Ha] Hb; [apply H2, Hb|apply H5; assumption].
    + intros (H1 & H2 & H3). inversion H1 as [|? ? H4 H5]; subst. constructor.
      * apply IH. split; [exact H4|]. split; [exact H2|]. auto.
      * rewrite Forall_app. split; [exact H5|]. apply Forall_forall. auto.
Qed.

Lemma search_ok fuel : forall t k s r targetp b cmp rc0, (depth t <= fuel)%nat -> t <> E -> whole s r [] (plug k t) ->
  get pay s targetp = Some b ->
  exists q k' c l rt rc, search fuel s (top t) targetp cmp rc0 = Some (q, rc) /\ plug k t = plug k' (N c l q rt) /\
    rc = cmp (payof s q) b /\ (rc < 0 -> rt = E) /\ (rc > 0 -> l = E) /\
    (total_order cmp -> ascending cmp s (inorder (plug k t)) ->
     (forall p, In p (pre k) -> cmp (payof s p) b < 0) -> (forall p, In p (post k) -> cmp (payof s p) b > 0) ->
     (forall p, In p (pre k') -> cmp (payof s p) b < 0) /\ (forall p, In p (post k') -> cmp (payof s p) b > 0)).
Proof.
  induction fuel as [|fuel IH]; intros t k s r targetp b cmp rc0 F NE W B; (destruct t as [|c l x rt]; [contradiction|]); cbn [depth] in F; [lia|].
  cbn [search top]. destruct (node_at _ _ k c l x rt W) as (X & v & V). unfold isleaf at 1. destruct (Z.eqb_spec x 0); [contradiction|].
  rewrite !(get_eq _ _ _ _ V), B. cbn [bind pay left right]. assert (PX : payof s x = v) by (unfold payof; rewrite V; reflexivity).
  destruct (Z.ltb_spec (cmp v b) 0) as [LT|GE].
  - unfold isleaf. destruct (Z.eqb_spec (top rt) 0) as [Z0|NZ]; cbn [negb].
    + apply (top_zero s r x) in Z0; [|exact (subtree_at s r (FR c l x :: k) rt W)]. subst rt.
      exists x, k, c, l, E, (cmp v b). split; [reflexivity|]. split; [reflexivity|]. split; [rewrite PX; reflexivity|].
      split; [reflexivity|]. split; [lia|auto].
    + assert (NR : rt <> E) by (intros ->; apply NZ; reflexivity).
      destruct (IH rt (FR c l x :: k) s r targetp b cmp (cmp v b) ltac:(lia) NR W B) as (q & k' & c' & l' & r' & rc & E1 & E2 & E3 & E4 & E5 & E6).
      exists q, k', c', l', r', rc. split; [exact E1|]. split; [exact E2|]. split; [exact E3|]. split; [exact E4|]. split; [exact E5|].
      intros TO AS PR PO. apply E6; [exact TO|exact AS| |exact PO].
      cbn [pre]. intros p P. apply in_app_or in P as [P|P]; [apply PR, P|]. apply in_app_or in P as [P|[<-|[]]]; [|rewrite PX; exact LT].
      apply (order_lt_le cmp _ v b TO); [|lia].
      unfold ascending in AS. rewrite inorder_plug in AS. cbn [inorder] in AS. apply sorted_app in AS as (_ & AS & _).
      apply sorted_app in AS as (AS & _ & _). apply sorted_app in AS as (_ & _ & AS). rewrite <- PX. apply AS; [exact P|left; reflexivity].
  - destruct (Z.ltb_spec 0 (cmp v b)) as [GT|LE].
    + unfold isleaf. destruct (Z.eqb_spec (top l) 0) as [Z0|NZ]; cbn [negb].
      * apply (top_zero s r x) in Z0; [|exact (subtree_at s r (FL c x rt :: k) l W)]. subst l.
        exists x, k, c, E, rt, (cmp v b). split; [reflexivity|]. split; [reflexivity|]. split; [rewrite PX; reflexivity|].
        split; [lia|]. split; [reflexivity|auto].
      * assert (NL : l <> E) by (intros ->; apply NZ; reflexivity).
        destruct (IH l (FL c x rt :: k) s r targetp b cmp (cmp v b) ltac:(lia) NL W B) as (q & k' & c' & l' & r' & rc & E1 & E2 & E3 & E4 & E5 & E6).
        exists q, k', c', l', r', rc. split; [exact E1|]. split; [exact E2|]. split; [exact E3|]. split; [exact E4|]. split; [exact E5|].
        intros TO AS PR PO. apply E6; [exact TO|exact AS|exact PR|].
        cbn [post]. intros p [<-|P]; [rewrite PX; lia|]. apply in_app_or in P as [P|P]; [|apply PO, P].
        assert (AXP : cmp v (payof s p) < 0).
        { unfold ascending in AS. rewrite inorder_plug in AS. cbn [inorder] in AS. apply sorted_app in AS as (_ & AS & _).
          apply sorted_app in AS as (AS & _ & _). apply sorted_app in AS as (_ & AS & _).
          inversion AS as [|? ? _ H]. rewrite Forall_forall in H. rewrite <- PX. apply H, P. }
        assert (BV : cmp b v < 0) by (apply (proj1 TO); lia).
        apply (proj1 TO). apply (order_lt_le cmp b v (payof s p) TO BV). lia.
    + exists x, k, c, l, rt, (cmp v b). split; [reflexivity|]. split; [reflexivity|]. split; [rewrite PX; reflexivity|]. split; [lia|]. split; [lia|auto].
Qed.

(** * Audit *)

Lemma audit_ok fuel : forall t k s r n h hp, (depth t < fuel)%nat -> whole s r [] (plug k t) -> redblack t n ->
  (k = [] -> isb t = true) -> 0 <= h -> hp = -1 \/ hp = h + Z.of_nat n ->
  audit_from fuel s (top t) (ctop k) r h hp = Some (0, match t with E => hp | _ => h + Z.of_nat n end).
Proof.
  induction fuel as [|fuel IH]; intros t k s r n h hp F W RB BK H HP; [lia|].
  destruct t as [|c l x rt]; [reflexivity|]. cbn [depth] in F. cbn [audit_from top].
  destruct (node_at _ _ k c l x rt W) as (X & v & V). unfold isleaf at 1. destruct (Z.eqb_spec x 0); [contradiction|].
  rewrite V. cbn [bind root parent left right color error]. rewrite !Z.eqb_refl. cbn [negb].
  destruct (root_at _ _ _ W) as (R & RT). rewrite (load_eq _ _ R), RT. cbn [bind].
  assert (ROOT : (top (plug k (N c l x rt)) =? x) = isleaf (ctop k)).
  { destruct k as [|f k]; [cbn; apply Z.eqb_refl|].
    assert (CT : isleaf (ctop (f :: k)) = false).
    { unfold isleaf. apply Z.eqb_neq. destruct f; cbn [ctop].
      - exact (proj1 (node_at _ _ k _ _ _ _ W)).
      - exact (proj1 (node_at _ _ k _ _ _ _ W)). }
    rewrite CT. apply Z.eqb_neq. intros Q. refine (top_plug (f :: k) (N c l x rt) x ltac:(discriminate) _ _ (eq_sym Q)); [apply in_mid|].
    exact (nodup_at s r (f :: k) _ W). }
  rewrite ROOT. rewrite andb_negb_r.
  assert (BC : isleaf (ctop k) && negb (Bool.eqb c BLACK) = false).
  { destruct k as [|f k].
    - specialize (BK eq_refl). cbn in BK. subst c. reflexivity.
    - assert (CT : isleaf (ctop (f :: k)) = false).
      { unfold isleaf. apply Z.eqb_neq. destruct f; cbn [ctop]; exact (proj1 (node_at _ _ k _ _ _ _ W)). }
      rewrite CT. reflexivity. }
  rewrite BC. clear BC.
  assert (PL : (if isleaf (ctop k) then Some false else let* pl := get left s (ctop k) in
      if pl =? x then Some false else let* pr := get right s (ctop k) in Some (negb (pr =? x))) = Some false).
  { destruct k as [|[c1 p r1|c1 l1 p] k]; [reflexivity| |]; cbn [ctop].
    - destruct (node_at _ _ k c1 (N c l x rt) p r1 W) as (P & w & VP). unfold isleaf. destruct (Z.eqb_spec p 0); [contradiction|].
      rewrite (get_eq _ _ _ _ VP). cbn [left bind top]. rewrite Z.eqb_refl. reflexivity.
    - destruct (node_at _ _ k c1 l1 p (N c l x rt) W) as (P & w & VP). unfold isleaf. destruct (Z.eqb_spec p 0); [contradiction|].
      rewrite !(get_eq _ _ _ _ VP). cbn [left right bind top]. rewrite Z.eqb_refl. destruct (top l1 =? x); reflexivity. }
  rewrite PL. cbn [bind].
  assert (CC : negb (Bool.eqb c RED) && negb (Bool.eqb c BLACK) = false) by (destruct c; reflexivity). rewrite CC. clear CC PL ROOT.
  set (h1 := if Bool.eqb c BLACK then h + 1 else h).
  apply rb_inv in RB as (n' & L & RR & B & ->).
  assert (HN : h1 + Z.of_nat n' = h + Z.of_nat (if c then S n' else n')) by (unfold h1; destruct c; change (Bool.eqb true BLACK) with true; change (Bool.eqb false BLACK) with false; cbv iota; lia).
  assert (H1 : 0 <= h1) by (unfold h1; destruct (Bool.eqb c BLACK); lia).
  set (H0 := h + Z.of_nat (if c then S n' else n')) in *.
  assert (CHILD : forall t0 k0 hp0, (depth t0 < fuel)%nat -> ctop k0 = x -> k0 <> [] -> whole s r [] (plug k0 t0) -> redblack t0 n' ->
     (c = RED -> isb t0 = true) -> hp0 = -1 \/ hp0 = H0 ->
     (if negb (isleaf (top t0)) then let* lb := isblack s (top t0) in
       if Bool.eqb c RED && negb lb then Some (x, hp0) else audit_from fuel s (top t0) x r h1 hp0 else Some (0, hp0)) =
     Some (0, match t0 with E => hp0 | _ => H0 end)).
  { intros t0 k0 hp0 F0 K0 KN W0 RB0 BR HP0. destruct t0 as [|c0 l0 x0 r0]; [reflexivity|].
    destruct (node_at _ _ k0 c0 l0 x0 r0 W0) as (X0 & w & V0). cbn [top]. unfold isleaf. destruct (Z.eqb_spec x0 0); [contradiction|]. cbn [negb].
    unfold isblack. rewrite (get_eq _ _ _ _ V0). cbn [bind color].
    assert (Q : Bool.eqb c RED && negb (Bool.eqb c0 BLACK) = false).
    { destruct c; [reflexivity|]. specialize (BR eq_refl). cbn in BR. subst c0. reflexivity. }
    rewrite Q. rewrite <- K0. rewrite <- HN in HP0 |- *.
    apply (IH (N c0 l0 x0 r0) k0 s r n' h1 hp0 F0 W0 RB0); [contradiction|exact H1|exact HP0]. }
  rewrite (CHILD l (FL c x rt :: k) hp); [|lia|reflexivity|discriminate|exact W|exact L|intros Q; apply B, Q|exact HP].
  cbn [bind]. change (negb (0 =? 0)) with false. cbv iota.
  rewrite (CHILD rt (FR c l x :: k)); [|lia|reflexivity|discriminate|exact W|exact RR|intros Q; apply B, Q|destruct l; auto].
  cbn [bind]. change (negb (0 =? 0)) with false. cbv iota.
  destruct l as [|cl ll lx lr]; cbn [top].
  - destruct rt as [|cr rl rx rr]; cbn [top].
    + cbn [isleaf Z.eqb negb orb]. inversion L; subst n'. replace h1 with H0 by lia. destruct HP as [-> | ->].
      * reflexivity.
      * assert (0 <= H0) by lia. destruct (Z.ltb_spec H0 0); [lia|]. rewrite Z.eqb_refl. reflexivity.
    + destruct (node_at _ _ (FR c E x :: k) cr rl rx rr W) as (X0 & _). unfold isleaf. destruct (Z.eqb_spec rx 0); [contradiction|].
      cbn [negb]. rewrite orb_true_r. reflexivity.
  - destruct (node_at _ _ (FL c x rt :: k) cl ll lx lr W) as (X0 & _). unfold isleaf. destruct (Z.eqb_spec lx 0); [contradiction|].
    cbn [negb orb]. destruct rt; reflexivity.
Qed.

Lemma audit_at fuel s r t : whole s r [] t -> balanced t -> (depth t < fuel)%nat -> audit fuel s r = Some 0.
Proof.
  intros W ((n & RB) & B) F. unfold audit. destruct (root_at _ _ _ W) as (R & Q). rewrite (load_eq _ _ R), Q. cbn [bind].
  pose proof (audit_ok fuel t [] s r n 0 (-1) F W RB (fun _ => B) (Z.le_refl 0) (or_introl eq_refl)) as H. cbn [ctop] in H.
  rewrite H. reflexivity.
Qed.

(** * One result *)

Ltac mono :=
  repeat match goal with
  | H : None = Some _ |- _ => discriminate H
  | H : bind ?a _ = Some _ |- bind ?a _ = Some _ => destruct a; [cbn [bind] in H |- *|discriminate H]
  | H : (if ?b then _ else _) = Some _ |- (if ?b then _ else _) = Some _ => destruct b
  | H : (let '(_, _) := ?p in _) = Some _ |- _ => destruct p
  | IH : forall _ _ _ _, _ -> _ |- _ => solve [eauto]
  | H : ?a = Some _ |- ?a = Some _ => exact H
  end.

Lemma insert_fixup_mono fuel : forall fuel' s x r s', (fuel <= fuel')%nat ->
  insert_fixup fuel s x r = Some s' -> insert_fixup fuel' s x r = Some s'.
Proof.
  induction fuel as [|fuel IH]; intros fuel' s x r s' F H; [discriminate|]. destruct fuel' as [|fuel']; [lia|].
  apply le_S_n in F. cbn [insert_fixup] in *. mono; eauto.
Qed.
Lemma remove_fixup_mono fuel : forall fuel' s x p r s', (fuel <= fuel')%nat ->
  remove_fixup fuel s x p r = Some s' -> remove_fixup fuel' s x p r = Some s'.
Proof.
  induction fuel as [|fuel IH]; intros fuel' s x p r s' F H; [discriminate|]. destruct fuel' as [|fuel']; [lia|].
  apply le_S_n in F. cbn [remove_fixup] in *. mono; eauto.
Qed.
Lemma leftmost_mono fuel : forall fuel' s x z, (fuel <= fuel')%nat -> leftmost fuel s x = Some z -> leftmost fuel' s x = Some z.
Proof.
  induction fuel as [|fuel IH]; intros fuel' s x z F H; [discriminate|]. destruct fuel' as [|fuel']; [lia|].
  apply le_S_n in F. cbn [leftmost] in *. mono; eauto.
Qed.
Lemma rightmost_mono fuel : forall fuel' s x z, (fuel <= fuel')%nat -> rightmost fuel s x = Some z -> rightmost fuel' s x = Some z.
Proof.
  induction fuel as [|fuel IH]; intros fuel' s x z F H; [discriminate|]. destruct fuel' as [|fuel']; [lia|].
  apply le_S_n in F. cbn [rightmost] in *. mono; eauto.
Qed.
Lemma climb_right_mono fuel : forall fuel' s x z, (fuel <= fuel')%nat -> climb_right fuel s x = Some z -> climb_right fuel' s x = Some z.
Proof.
  induction fuel as [|fuel IH]; intros fuel' s x z F H; [discriminate|]. destruct fuel' as [|fuel']; [lia|].
  apply le_S_n in F. cbn [climb_right] in *. mono; eauto.
Qed.
Lemma climb_left_mono fuel : forall fuel' s x z, (fuel <= fuel')%nat -> climb_left fuel s x = Some z -> climb_left fuel' s x = Some z.
Proof.
  induction fuel as [|fuel IH]; intros fuel' s x z F H; [discriminate|]. destruct fuel' as [|fuel']; [lia|].
  apply le_S_n in F. cbn [climb_left] in *. mono; eauto.
Qed.
Lemma search_mono fuel : forall fuel' s x t cmp rc z, (fuel <= fuel')%nat -> search fuel s x t cmp rc = Some z -> search fuel' s x t cmp rc = Some z.
Proof.
  induction fuel as [|fuel IH]; intros fuel' s x t cmp rc z F H; [discriminate|]. destruct fuel' as [|fuel']; [lia|].
  apply le_S_n in F. cbn [search] in *. mono; eauto.
Qed.

Lemma bind_mono {A B} (f f' : option A) (g g' : A -> option B) z : (forall y, f = Some y -> f' = Some y) ->
  (forall y, g y = Some z -> g' y = Some z) -> bind f g = Some z -> bind f' g' = Some z.
Proof. intros H1 H2 H. destruct f as [y|]; [|discriminate]. rewrite (H1 y eq_refl). apply H2, H. Qed.

Ltac step_mono := repeat first
  [ assumption
  | discriminate
  | match goal with |- (let '(_, _) := ?p in _) = Some _ -> _ => destruct p end
  | apply bind_mono; [intros ?|intros ?]
  | match goal with |- (if ?b then _ else _) = Some _ -> _ => destruct b end
  | exact id
  | apply insert_fixup_mono | apply remove_fixup_mono | apply leftmost_mono | apply rightmost_mono | apply climb_right_mono
  | apply climb_left_mono | apply search_mono ].

Lemma audit_mono fuel : forall fuel' s x p r h hp z, (fuel <= fuel')%nat ->
  audit_from fuel s x p r h hp = Some z -> audit_from fuel' s x p r h hp = Some z.
Proof.
  induction fuel as [|fuel IH]; intros fuel' s x p r h hp z F; [discriminate|]. destruct fuel' as [|fuel']; [lia|].
  apply le_S_n in F. cbn [audit_from]. step_mono; apply IH; exact F.
Qed.

Lemma step_mono_ok cmp fuel fuel' s o z : (fuel <= fuel')%nat -> step cmp fuel s o = Some z -> step cmp fuel' s o = Some z.
Proof.
  intros F. destruct o; cbn [step]; unfold search_insert_or_replace, insert_root, insert_left, insert_right, insert_left_or_root,
    insert_right_or_root, remove, take_out, find, find_close, first, last, next, prev, audit; step_mono; try (apply audit_mono; exact F).
Qed.
