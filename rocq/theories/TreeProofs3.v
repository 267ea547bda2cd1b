(** Proofs about the red-black trees: repairing a tree that misses a black node. *)

From Coq Require Import ZArith List Bool Lia Sorting.Permutation.
From Verif Require Import CUtil TreeModel TreeSpec TreeProofs TreeProofs2.
Import ListNotations.
Local Open Scope Z_scope.

(** * The parts of the loop *)

Definition finish (s : st) (nodep : Z) : option st := if negb (isleaf nodep) then set_color s nodep BLACK else Some s.
Definition p3l (s : st) (siblingp parentp rootp : Z) : option st :=
  let* c := get color s parentp in
  let* s := set_color s siblingp c in
  let* s := set_color s parentp BLACK in
  let* sr := get right s siblingp in
  let* s := if negb (isleaf sr) then set_color s sr BLACK else Some s in
  let* s := rotate_left s parentp rootp in
  let* nodep := load_root s rootp in
  finish s nodep.
Definition p2l (fuel : nat) (s : st) (siblingp parentp rootp : Z) : option st :=
  let* sl := get left s siblingp in
  let* slb := leaf_or_black s sl in
  let* sr := get right s siblingp in
  let* srb := leaf_or_black s sr in
  if slb && srb then
    let* s := set_color s siblingp RED in
    let* pp := get parent s parentp in
    remove_fixup fuel s parentp pp rootp
  else
    let* '(s, siblingp) :=
      if srb then
        let* s := if negb (isleaf sl) then set_color s sl BLACK else Some s in
        let* s := set_color s siblingp RED in
        let* s := rotate_right s siblingp rootp in
        let* siblingp := get right s parentp in Some (s, siblingp)
      else Some (s, siblingp) in
    p3l s siblingp parentp rootp.
Definition p3r (s : st) (siblingp parentp rootp : Z) : option st :=
  let* c := get color s parentp in
  let* s := set_color s siblingp c in
  let* s := set_color s parentp BLACK in
  let* sl := get left s siblingp in
  let* s := if negb (isleaf sl) then set_color s sl BLACK else Some s in
  let* s := rotate_right s parentp rootp in
  let* nodep := load_root s rootp in
  finish s nodep.
Definition p2r (fuel : nat) (s : st) (siblingp parentp rootp : Z) : option st :=
  let* sl := get left s siblingp in
  let* slb := leaf_or_black s sl in
  let* sr := get right s siblingp in
  let* srb := leaf_or_black s sr in
  if slb && srb then
    let* s := set_color s siblingp RED in
    let* pp := get parent s parentp in
    remove_fixup fuel s parentp pp rootp
  else
    let* '(s, siblingp) :=
      if slb then
        let* s := if negb (isleaf sr) then set_color s sr BLACK else Some s in
        let* s := set_color s siblingp RED in
        let* s := rotate_left s siblingp rootp in
        let* siblingp := get left s parentp in Some (s, siblingp)
      else Some (s, siblingp) in
    p3r s siblingp parentp rootp.

Lemma remove_fixup_eq fuel s nodep parentp rootp : remove_fixup (S fuel) s nodep parentp rootp =
  let* lb := leaf_or_black s nodep in
  let* r := load_root s rootp in
  if negb (lb && negb (nodep =? r)) then finish s nodep
  else
    let* pl := get left s parentp in
    if pl =? nodep then
      let* siblingp := get right s parentp in
      let* sr := isred s siblingp in
      let* '(s, siblingp) :=
        if sr then
          let* s := set_color s siblingp BLACK in
          let* s := set_color s parentp RED in
          let* s := rotate_left s parentp rootp in
          let* siblingp := get right s parentp in Some (s, siblingp)
        else Some (s, siblingp) in
      p2l fuel s siblingp parentp rootp
    else
      let* pr := get right s parentp in
      if pr =? nodep then
        let* siblingp := get left s parentp in
        let* sr := isred s siblingp in
        let* '(s, siblingp) :=
          if sr then
            let* s := set_color s siblingp BLACK in
            let* s := set_color s parentp RED in
            let* s := rotate_right s parentp rootp in
            let* siblingp := get left s parentp in Some (s, siblingp)
          else Some (s, siblingp) in
        p2r fuel s siblingp parentp rootp
      else
        let* s := set_error s nodep in
        remove_fixup fuel s nodep parentp rootp.
Proof. reflexivity. Qed.

(** * The tree that misses a black node *)

(** A red tree is going to be black. *)
Definition deficit (t : tree) (n : nat) : Prop :=
  match t with
  | N false l _ rt => redblack l n /\ redblack rt n
  | _ => redblack t n
  end.

Lemma deficit_black t n : deficit t n -> isb t = true -> redblack t n.
Proof. destruct t as [|[] l x rt]; cbn; try discriminate; auto. Qed.
Lemma deficit_red t n : deficit t n -> isb t = false -> exists l x rt, t = N RED l x rt /\ redblack l n /\ redblack rt n.
Proof. destruct t as [|[] l x rt]; cbn; try discriminate. intros (A & B) _. eauto 6. Qed.

Lemma root_black_m s r t m : whole s r [] t -> redblack t m -> isb t = true -> t <> E ->
  morph s (let* nodep := load_root s r in finish s nodep) r t t.
Proof.
  intros W T B NE. destruct (root_at _ _ _ W) as (R & Q). rewrite (load_eq _ _ R), Q. cbn [bind].
  destruct t as [|c l x rt]; [contradiction|]. cbn in B. subst c. cbn [top]. unfold finish, isleaf.
  destruct (node_at _ _ [] _ _ _ _ W) as (X & _). destruct (Z.eqb_spec x 0); [contradiction|]. exact (color_m s r [] true l x rt BLACK W).
Qed.

(** The last part: the sibling is black, its far child red. *)
Lemma p3l_ok s r k c t p a sx b n m : whole s r [] (plug k (N c t p (N BLACK a sx b))) ->
  redblack t n -> isb t = true -> redblack a n -> redblack b n -> isb b = false ->
  (c = RED -> accepts k = true) -> okc k (if c then S (S n) else S n) m ->
  fixes s (p3l s sx p r) r (plug k (N c t p (N BLACK a sx b))).
Proof.
  intros W T BT A B BB AC K. unfold p3l. lk W k c t p (N BLACK a sx b).
  eapply fixes_bind; [exact (color_m s r (FR c t p :: k) BLACK a sx b c W)|intros s1 W1].
  eapply fixes_bind; [exact (color_m s1 r k c t p _ BLACK W1)|intros s2 W2].
  lk W2 (FR BLACK t p :: k) c a sx b. destruct b as [|cb b1 bx b2]; [discriminate|]. cbn in BB. subst cb. cbn [top] in *.
  destruct (node_at _ _ (FR c a sx :: FR BLACK t p :: k) RED b1 bx b2 W2) as (BX & _). unfold isleaf at 1. destruct (Z.eqb_spec bx 0); [contradiction|].
  cbn [negb]. eapply fixes_bind; [exact (color_m s2 r (FR c a sx :: FR BLACK t p :: k) RED b1 bx b2 BLACK W2)|intros s3 W3].
  eapply fixes_bind; [exact (left_m s3 r k BLACK t p c a sx _ W3)|intros s4 W4].
  apply rb_inv in B as (n' & B1 & B2 & _ & <-).
  assert (T' : redblack (N c (N BLACK t p a) sx (N BLACK b1 bx b2)) (if c then S (S n) else S n)).
  { apply rb_node; [apply RB_black; assumption|apply RB_black; assumption|auto]. }
  assert (AC' : isb (N c (N BLACK t p a) sx (N BLACK b1 bx b2)) = true \/ accepts k = true) by (cbn; destruct c; auto).
  destruct (plug_rb k _ _ _ K T' AC') as (P1 & P2).
  eapply fixes_done; [|exact T'|exact K|exact AC']. apply (root_black_m _ _ _ m W4); [exact P1|exact P2|apply plug_not_E; discriminate].
Qed.

Lemma p3r_ok s r k c t p a sx b n m : whole s r [] (plug k (N c (N BLACK a sx b) p t)) ->
  redblack t n -> isb t = true -> redblack a n -> redblack b n -> isb a = false ->
  (c = RED -> accepts k = true) -> okc k (if c then S (S n) else S n) m ->
  fixes s (p3r s sx p r) r (plug k (N c (N BLACK a sx b) p t)).
Proof.
  intros W T BT A B BB AC K. unfold p3r. lk W k c (N BLACK a sx b) p t.
  eapply fixes_bind; [exact (color_m s r (FL c p t :: k) BLACK a sx b c W)|intros s1 W1].
  eapply fixes_bind; [exact (color_m s1 r k c _ p t BLACK W1)|intros s2 W2].
  lk W2 (FL BLACK p t :: k) c a sx b. destruct a as [|cb b1 bx b2]; [discriminate|]. cbn in BB. subst cb. cbn [top] in *.
  destruct (node_at _ _ (FL c sx b :: FL BLACK p t :: k) RED b1 bx b2 W2) as (BX & _). unfold isleaf at 1. destruct (Z.eqb_spec bx 0); [contradiction|].
  cbn [negb]. eapply fixes_bind; [exact (color_m s2 r (FL c sx b :: FL BLACK p t :: k) RED b1 bx b2 BLACK W2)|intros s3 W3].
  eapply fixes_bind; [exact (right_m s3 r k BLACK t p c _ sx b W3)|intros s4 W4].
  apply rb_inv in A as (n' & B1 & B2 & _ & <-).
  assert (T' : redblack (N c (N BLACK b1 bx b2) sx (N BLACK b p t)) (if c then S (S n) else S n)).
  { apply rb_node; [apply RB_black; assumption|apply RB_black; assumption|auto]. }
  assert (AC' : isb (N c (N BLACK b1 bx b2) sx (N BLACK b p t)) = true \/ accepts k = true) by (cbn; destruct c; auto).
  destruct (plug_rb k _ _ _ K T' AC') as (P1 & P2).
  eapply fixes_done; [|exact T'|exact K|exact AC']. apply (root_black_m _ _ _ m W4); [exact P1|exact P2|apply plug_not_E; discriminate].
Qed.

(** The second part: the sibling is black. *)
Definition enough (fuel : nat) (k : ctx) (c : bool) : Prop := ((if c then S (length k) else 0) < fuel)%nat.
Definition repairs (fuel : nat) : Prop := forall k s r t n m, enough fuel k (isb t) ->
  whole s r [] (plug k t) -> deficit t n -> okc k (S n) m -> fixes s (remove_fixup fuel s (top t) (ctop k) r) r (plug k t).

Lemma p2l_ok fuel s r k c t p a sx b n m : enough fuel k c -> repairs fuel ->
  whole s r [] (plug k (N c t p (N BLACK a sx b))) ->
  redblack t n -> isb t = true -> redblack a n -> redblack b n ->
  (c = RED -> accepts k = true) -> okc k (if c then S (S n) else S n) m ->
  fixes s (p2l fuel s sx p r) r (plug k (N c t p (N BLACK a sx b))).
Proof.
  intros F IH W T BT A B AC K. unfold p2l. lk W (FR c t p :: k) BLACK a sx b.
  rewrite (black_ok s r sx a (subtree_at s r (FL BLACK sx b :: FR c t p :: k) a W)). cbn [bind].
  rewrite (black_ok s r sx b (subtree_at s r (FR BLACK a sx :: FR c t p :: k) b W)). cbn [bind].
  destruct (isb a) eqn:BA, (isb b) eqn:BB; cbn [andb].
  - eapply fixes_bind; [exact (color_m s r (FR c t p :: k) BLACK a sx b RED W)|intros s1 W1].
    cbn [plug] in W1. lk W1 k c t p (N RED a sx b).
    apply (IH k s1 r (N c t p (N RED a sx b)) (if c then S n else n) m); [exact F|exact W1| |destruct c; exact K].
    destruct c; cbn [deficit]; [apply RB_black|split]; auto; apply RB_red; auto.
  - cbn [bind]. eapply p3l_ok; eauto.
  - rewrite bind_assoc. destruct a as [|ca a1 ax a2]; [discriminate|]. cbn in BA. subst ca. cbn [top].
    destruct (node_at _ _ (FL BLACK sx b :: FR c t p :: k) RED a1 ax a2 W) as (AX & _). unfold isleaf at 1. destruct (Z.eqb_spec ax 0); [contradiction|].
    cbn [negb].
    eapply fixes_bind; [exact (color_m s r (FL BLACK sx b :: FR c t p :: k) RED a1 ax a2 BLACK W)|intros s1 W1]. rewrite bind_assoc.
    eapply fixes_bind; [exact (color_m s1 r (FR c t p :: k) BLACK _ sx b RED W1)|intros s2 W2]. rewrite bind_assoc.
    eapply fixes_bind; [exact (right_m s2 r (FR c t p :: k) RED b sx BLACK a1 ax a2 W2)|intros s3 W3]. rewrite bind_assoc.
    cbn [plug] in W3. lk W3 k c t p (N BLACK a1 ax (N RED a2 sx b)).
    apply rb_inv in A as (n' & A1 & A2 & BA & <-). destruct (BA eq_refl) as (BA1 & BA2).
    eapply p3l_ok; [exact W3|exact T|exact BT|exact A1| |reflexivity|exact AC|exact K]. apply RB_red; assumption.
  - cbn [bind]. eapply p3l_ok; eauto.
Qed.

Lemma p2r_ok fuel s r k c t p a sx b n m : enough fuel k c -> repairs fuel ->
  whole s r [] (plug k (N c (N BLACK a sx b) p t)) ->
  redblack t n -> isb t = true -> redblack a n -> redblack b n ->
  (c = RED -> accepts k = true) -> okc k (if c then S (S n) else S n) m ->
  fixes s (p2r fuel s sx p r) r (plug k (N c (N BLACK a sx b) p t)).
Proof.
  intros F IH W T BT A B AC K. unfold p2r. lk W (FL c p t :: k) BLACK a sx b.
  rewrite (black_ok s r sx a (subtree_at s r (FL BLACK sx b :: FL c p t :: k) a W)). cbn [bind].
  rewrite (black_ok s r sx b (subtree_at s r (FR BLACK a sx :: FL c p t :: k) b W)). cbn [bind].
  destruct (isb a) eqn:BA, (isb b) eqn:BB; cbn [andb].
  - eapply fixes_bind; [exact (color_m s r (FL c p t :: k) BLACK a sx b RED W)|intros s1 W1].
    cbn [plug] in W1. lk W1 k c (N RED a sx b) p t.
    apply (IH k s1 r (N c (N RED a sx b) p t) (if c then S n else n) m); [exact F|exact W1| |destruct c; exact K].
    destruct c; cbn [deficit]; [apply RB_black|split]; auto; apply RB_red; auto.
  - rewrite bind_assoc. destruct b as [|cb b1 bx b2]; [discriminate|]. cbn in BB. subst cb. cbn [top].
    destruct (node_at _ _ (FR BLACK a sx :: FL c p t :: k) RED b1 bx b2 W) as (AX & _). unfold isleaf at 1. destruct (Z.eqb_spec bx 0); [contradiction|].
    cbn [negb].
    eapply fixes_bind; [exact (color_m s r (FR BLACK a sx :: FL c p t :: k) RED b1 bx b2 BLACK W)|intros s1 W1]. rewrite bind_assoc.
    eapply fixes_bind; [exact (color_m s1 r (FL c p t :: k) BLACK a sx _ RED W1)|intros s2 W2]. rewrite bind_assoc.
    eapply fixes_bind; [exact (left_m s2 r (FL c p t :: k) RED a sx BLACK b1 bx b2 W2)|intros s3 W3]. rewrite bind_assoc.
    cbn [plug] in W3. lk W3 k c (N BLACK (N RED a sx b1) bx b2) p t.
    apply rb_inv in B as (n' & B1 & B2 & BB & <-). destruct (BB eq_refl) as (BB1 & BB2).
    eapply p3r_ok; [exact W3|exact T|exact BT| |exact B2|reflexivity|exact AC|exact K]. apply RB_red; assumption.
  - cbn [bind]. eapply p3r_ok; eauto.
  - cbn [bind]. eapply p3r_ok; eauto.
Qed.

Lemma top_plug k : forall t x, k <> [] -> In x (inorder t) -> NoDup (ptrs k t) -> x <> top (plug k t).
Proof.
  induction k as [|f k IH]; intros t x NE I ND; [contradiction|]. unfold ptrs in *.
  destruct k as [|f' k].
  - destruct f; cbn [plug top]; intros ->; count x0.
  - destruct f; cbn [plug]; apply IH; try discriminate.
    + cbn. apply in_or_app. auto.
    + cbn [cptrs inorder] in *. rewrite <- app_assoc. exact ND.
    + cbn. apply in_or_app. right. right. exact I.
    + eapply Permutation_NoDup; [|exact ND]. apply Permutation_sym. exact (perm_right (inorder l) (inorder t) x0 (cptrs (f' :: k))).
Qed.

Lemma plug_tree_E k : forall t, plug k t = E -> k = [] /\ t = E.
Proof. induction k as [|[] k IH]; intros t H; [auto| |]; cbn in H; apply IH in H as (_ & H); discriminate. Qed.

Lemma remove_fixup_ok fuel : repairs fuel.
Proof.
  induction fuel as [|fuel IH]; intros k s r t n m F W D K; [unfold enough in F; lia|].
  rewrite remove_fixup_eq. rewrite (black_ok s r (ctop k) t (subtree_at s r k t W)). cbn [bind].
  destruct (root_at _ _ _ W) as (R & Q). rewrite (load_eq _ _ R), Q. cbn [bind].
  destruct (isb t) eqn:B; cbn [andb negb].
  2: { apply deficit_red in D as (l & x & rt & -> & L & RT); [|exact B]. cbn [top].
    destruct (node_at _ _ k RED l x rt W) as (X & _). unfold finish, isleaf. destruct (Z.eqb_spec x 0); [contradiction|]. cbn [negb].
    eexists _, m. split; [exact (color_m s r k RED l x rt BLACK W)|]. apply (plug_rb k _ (S n) m K); [apply RB_black; assumption|left; reflexivity]. }
  pose proof (deficit_black _ _ D B) as T. clear D.
  destruct k as [|f k].
  { cbn [plug] in *. rewrite Z.eqb_refl. cbn [negb]. exists t, n. split; [|auto]. unfold finish, isleaf.
    destruct t as [|c l x rt]; [apply morph_id; exact W|]. cbn in B. subst c. destruct (node_at _ _ [] _ _ _ _ W) as (X & _). cbn [top].
    destruct (Z.eqb_spec x 0); [contradiction|]. exact (color_m s r [] true l x rt BLACK W). }
  assert (NR : top t =? top (plug (f :: k) t) = false).
  { apply Z.eqb_neq. destruct t as [|c l x rt].
    - intros H. cbn [top] in H. symmetry in H. apply (top_zero s r 0) in H; [|apply W]. apply plug_tree_E in H as (H & _). discriminate.
    - apply top_plug; [discriminate|apply in_mid|exact (nodup_at s r (f :: k) _ W)]. }
  rewrite NR. cbn [negb]. clear NR. unfold enough in F. cbn [length] in F.
  destruct f as [c p sib|c sib p]; cbn [ctop okc plug] in *; destruct K as (S1 & S2 & K).
  - lk W k c t p sib. rewrite Z.eqb_refl.
    destruct sib as [|cs a sx b]; [inversion S1|]. cbn [top]. unfold isred.
    destruct (node_at _ _ (FR c t p :: k) cs a sx b W) as (SX & vs & VS). rewrite (get_eq _ _ _ _ VS). cbn [color bind].
    apply rb_inv in S1 as (n' & A & B' & AB & EN).
    destruct cs.
    + injection EN as <-. change (Bool.eqb true RED) with false. cbn [bind].
      eapply p2l_ok; [|exact IH|exact W|exact T|exact B|exact A|exact B'| |exact K]; [unfold enough; destruct c; lia|]. intros C. apply S2, C.
    + change (Bool.eqb false RED) with true. cbv iota. destruct (AB eq_refl) as (BA & BB). subst n'.
      assert (c = BLACK) by (destruct c; [reflexivity|destruct (S2 eq_refl) as (H & _); discriminate]). subst c.
      rewrite bind_assoc.
      eapply fixes_bind; [exact (color_m s r (FR BLACK t p :: k) RED a sx b BLACK W)|intros s1 W1]. rewrite bind_assoc.
      eapply fixes_bind; [exact (color_m s1 r k BLACK t p _ RED W1)|intros s2 W2]. rewrite bind_assoc.
      eapply fixes_bind; [exact (left_m s2 r k RED t p BLACK a sx b W2)|intros s3 W3]. rewrite bind_assoc.
      cbn [plug] in W3. destruct (node_at _ _ (FL BLACK sx b :: k) RED t p a W3) as (_ & vp & VP). rewrite (get_eq _ _ _ _ VP). cbn [right bind].
      destruct a as [|ca a1 ax a2]; [inversion A|]. cbn in BA. subst ca. cbn [top]. apply rb_inv in A as (n' & A1 & A2 & _ & EN). injection EN as <-.
      apply (p2l_ok fuel s3 r (FL BLACK sx b :: k) RED t p a1 ax a2 n m); auto; [unfold enough; cbn; lia|].
      cbn [okc]. split; [exact B'|]. split; [discriminate|exact K].
  - lk W k c sib p t.
    assert (NE : (top sib =? top t) = false).
    { apply Z.eqb_neq. destruct t as [|ct tl tx tr].
      - cbn [top]. intros H. apply (top_zero s r p) in H; [|exact (subtree_at s r (FL c p E :: k) sib W)]. subst sib. inversion S1.
      - cbn [top]. destruct (node_at _ _ (FR c sib p :: k) ct tl tx tr W) as (TX & _).
        apply (proj2 (child_other s r k c sib p _ tx W TX)). apply in_mid. }
    rewrite NE. clear NE. rewrite Z.eqb_refl.
    destruct sib as [|cs a sx b]; [inversion S1|]. cbn [top]. unfold isred.
    destruct (node_at _ _ (FL c p t :: k) cs a sx b W) as (SX & vs & VS). rewrite (get_eq _ _ _ _ VS). cbn [color bind].
    apply rb_inv in S1 as (n' & A & B' & AB & EN).
    destruct cs.
    + injection EN as <-. change (Bool.eqb true RED) with false. cbn [bind].
      eapply p2r_ok; [|exact IH|exact W|exact T|exact B|exact A|exact B'| |exact K]; [unfold enough; destruct c; lia|]. intros C. apply S2, C.
    + change (Bool.eqb false RED) with true. cbv iota. destruct (AB eq_refl) as (BA & BB). subst n'.
      assert (c = BLACK) by (destruct c; [reflexivity|destruct (S2 eq_refl) as (H & _); discriminate]). subst c.
      rewrite bind_assoc.
      eapply fixes_bind; [exact (color_m s r (FL BLACK p t :: k) RED a sx b BLACK W)|intros s1 W1]. rewrite bind_assoc.
      eapply fixes_bind; [exact (color_m s1 r k BLACK _ p t RED W1)|intros s2 W2]. rewrite bind_assoc.
      eapply fixes_bind; [exact (right_m s2 r k RED t p BLACK a sx b W2)|intros s3 W3]. rewrite bind_assoc.
      cbn [plug] in W3. destruct (node_at _ _ (FR BLACK a sx :: k) RED b p t W3) as (_ & vp & VP). rewrite (get_eq _ _ _ _ VP). cbn [left bind].
      destruct b as [|cb b1 bx b2]; [inversion B'|]. cbn in BB. subst cb. cbn [top]. apply rb_inv in B' as (n' & B1 & B2 & _ & EN). injection EN as <-.
      apply (p2r_ok fuel s3 r (FR BLACK a sx :: k) RED t p b1 bx b2 n m); auto; [unfold enough; cbn; lia|].
      cbn [okc]. split; [exact A|]. split; [discriminate|exact K].
Qed.
