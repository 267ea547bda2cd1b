From Coq Require Import ZArith List Bool Arith Lia Permutation.
From Verif Require Import CUtil ListModel ListSpec ListProofs.
Import ListNotations.
Local Open Scope nat_scope.

(** What an operation leaves alone. *)
Definition keeps (h h' : heap) (nodes : list nat) : Prop :=
  (forall y, data (h' y) = data (h y)) /\
  (forall y, ~ In y nodes -> next (h' y) = next (h y) /\ prev (h' y) = prev (h y) /\ root (h' y) = root (h y)).
Lemma keeps_refl h nodes : keeps h h nodes.
Proof. split; auto. Qed.
Lemma keeps_trans h1 h2 h3 n : keeps h1 h2 n -> keeps h2 h3 n -> keeps h1 h3 n.
Proof.
  intros (A1 & A2) (B1 & B2). split; [intros y; rewrite B1; apply A1|]. intros y Hy. destruct (A2 y Hy) as (X1 & X2 & X3), (B2 y Hy) as (Y1 & Y2 & Y3).
  rewrite Y1, Y2, Y3. auto.
Qed.
Lemma keeps_incl h h' n n' : incl n n' -> keeps h h' n -> keeps h h' n'.
Proof. intros I (A & B). split; [exact A|]. intros y Hy. apply B. intros Z. apply Hy, I, Z. Qed.

Lemma split_cons (x : nat) l : x :: l = [x] ++ l. Proof. reflexivity. Qed.
Lemma app_ne_comm (a b : list nat) : a ++ b <> [] -> b ++ a <> [].
Proof. destruct a, b; cbn; congruence. Qed.

Lemma perm_detach (x : nat) l1 l2 O : Permutation (concat ((l1 ++ x :: l2) :: O)) (concat ([x] :: (l1 ++ l2) :: O)).
Proof. cbn. rewrite <- !app_assoc. cbn. symmetry. apply Permutation_middle. Qed.

Lemma remove_core fuel h x l1 l2 O : represents h ((l1 ++ x :: l2) :: O) -> l1 ++ l2 <> [] -> length (l1 ++ x :: l2) <= fuel ->
  exists h', remove fuel h x = Some h' /\ represents h' ([x] :: (l1 ++ l2) :: O) /\ keeps h h' (l1 ++ x :: l2).
Proof.
  intros (N & R) NE L. pose proof (Forall_inv R) as R0. pose proof (Forall_inv_tail R) as RO. apply ring_cyc in R0 as (_ & C & F).
  set (m := l2 ++ l1). assert (Hm : m <> []) by (unfold m; apply app_ne_comm, NE).
  assert (N0 : NoDup (l1 ++ x :: l2)) by (cbn in N; exact (nodup_l _ _ N)).
  assert (Nm : NoDup (x :: m)).
  { apply (Permutation_NoDup (l := l1 ++ x :: l2)); [|exact N0]. unfold m. symmetry. apply Permutation_cons_app. apply Permutation_app_comm. }
  assert (Cx : cyc h ([x] ++ m)) by (apply cyc_rot in C; unfold m; rewrite app_assoc; exact C).
  assert (Xm : ~ In x m) by (inversion Nm; assumption).
  pose proof Cx as Cx'. apply cyc_app in Cx'; [|discriminate|exact Hm]. destruct Cx' as (_ & (A1 & A2) & Cm & (A3 & A4)). cbn [last hd] in A1, A2, A3, A4.
  assert (Hq : In (hd 0 m) m) by (apply hd_In, Hm). assert (Hp : In (last m 0) m) by (apply last_In, Hm).
  assert (Xq : x <> hd 0 m) by (intros E; apply Xm; rewrite E; exact Hq). assert (Xp : x <> last m 0) by (intros E; apply Xm; rewrite E; exact Hp).
  unfold remove. rewrite A1, A4. destruct (Nat.eqb_spec x (hd 0 m)) as [E|_]; [contradiction|]. cbn [negb].
  assert (H1 : exists h1, (if x =? root (h x) then reroot_range fuel h (hd 0 m) (last m 0) (hd 0 m) else Some h) = Some h1 /\
    same_links h h1 /\ (forall y, In y m -> root (h1 y) = hd 0 (l1 ++ l2)) /\ (forall y, ~ In y m -> root (h1 y) = root (h y))).
  { assert (Rx : root (h x) = hd 0 (l1 ++ x :: l2)) by (rewrite Forall_forall in F; apply F, in_or_app; right; left; reflexivity).
    destruct l1 as [|r l1].
    - cbn in Rx. rewrite Rx, Nat.eqb_refl. unfold m in *. rewrite app_nil_r in *. cbn [app] in *.
      destruct (reroot_range_ok (hd 0 l2) l2 fuel h Hm) as (h1 & E & S & T); [inversion Nm; assumption|exact Cm|cbn in L; lia|].
      exists h1. split; [exact E|]. split; [exact S|]. split; intros y Hy; rewrite T.
      + apply mem_In in Hy. rewrite Hy. reflexivity.
      + apply mem_not in Hy. rewrite Hy. reflexivity.
    - cbn in Rx. assert (Xr : x <> root (h x)).
      { rewrite Rx. intros E. apply Xm. unfold m. apply in_or_app. right. left. symmetry. exact E. }
      destruct (Nat.eqb_spec x (root (h x))) as [E|_]; [contradiction|]. exists h. split; [reflexivity|]. split; [intros y; auto|]. split; [|auto].
      intros y Hy. rewrite Forall_forall in F. apply F. unfold m in Hy. rewrite in_app_iff in *. cbn [In] in *. tauto. }
  destruct H1 as (h1 & E1 & S & T1 & T2). rewrite E1. cbn [bind].
  assert (Nx : next (h1 x) = hd 0 m) by (rewrite (proj1 (S x)); exact A1). assert (Px : prev (h1 x) = last m 0) by (rewrite (proj1 (proj2 (S x))); exact A4).
  eexists. split; [reflexivity|]. rewrite Nx, Px. set (h2 := set_prev h1 (hd 0 m) (last m 0)).
  assert (Nx2 : next (h2 x) = hd 0 m) by (unfold h2; rd; exact Nx).
  assert (Px2 : prev (h2 x) = last m 0) by (unfold h2; rd; destruct (Nat.eqb_spec x (hd 0 m)); [contradiction|exact Px]).
  rewrite Nx2, Px2. set (h3 := init _ x).
  assert (FN : forall y, next (h3 y) = if y =? x then x else if y =? last m 0 then hd 0 m else next (h y)).
  { intros y. unfold h3, init, h2. rd. rewrite (proj1 (S y)). reflexivity. }
  assert (FP : forall y, prev (h3 y) = if y =? x then x else if y =? hd 0 m then last m 0 else prev (h y)).
  { intros y. unfold h3, init, h2. rd. rewrite (proj1 (proj2 (S y))). reflexivity. }
  assert (FR : forall y, root (h3 y) = if y =? x then x else root (h1 y)).
  { intros y. unfold h3, init, h2. rd. reflexivity. }
  assert (FD : forall y, data (h3 y) = data (h y)).
  { intros y. unfold h3, init, h2. rd. apply S. }
  clearbody h3. clear h2 Nx2 Px2.
  destruct (unlink h h3 [x] m) as (U1 & U2); try assumption; try discriminate.
  { rewrite FN. destruct (Nat.eqb_spec (last m 0) x); [congruence|]. rewrite Nat.eqb_refl. reflexivity. }
  { rewrite FP. destruct (Nat.eqb_spec (hd 0 m) x); [congruence|]. rewrite Nat.eqb_refl. reflexivity. }
  { cbn. rewrite FN, Nat.eqb_refl. reflexivity. }
  { cbn. rewrite FP, Nat.eqb_refl. reflexivity. }
  { intros y Y1 Y2. cbn in Y2. rewrite FN. destruct (Nat.eqb_spec y x); [contradiction|]. destruct (Nat.eqb_spec y (last m 0)); [contradiction|reflexivity]. }
  { intros y Y1 Y2. cbn in Y2. rewrite FP. destruct (Nat.eqb_spec y x); [contradiction|]. destruct (Nat.eqb_spec y (hd 0 m)); [contradiction|reflexivity]. }
  assert (K : keeps h h3 (l1 ++ x :: l2)).
  { split; [exact FD|]. intros y Hy. rewrite in_app_iff in Hy. cbn [In] in Hy.
    assert (Ym : ~ In y m) by (unfold m; rewrite in_app_iff; tauto).
    assert (Yx : y <> x) by (intros ->; tauto). rewrite FN, FP, FR. destruct (Nat.eqb_spec y x); [contradiction|].
    destruct (Nat.eqb_spec y (last m 0)); [congruence|]. destruct (Nat.eqb_spec y (hd 0 m)); [congruence|]. rewrite T2 by exact Ym. auto. }
  split; [|exact K]. split.
  - apply (Permutation_NoDup (perm_detach x l1 l2 O)), N.
  - constructor; [|constructor].
    + apply ring_cyc. split; [discriminate|]. split; [exact U1|]. constructor; [|constructor]. rewrite FR, Nat.eqb_refl. reflexivity.
    + apply ring_cyc. split; [exact NE|]. split; [unfold m in U2; apply cyc_rot in U2; exact U2|].
      apply Forall_forall. intros y Hy. assert (Ym : In y m) by (unfold m; rewrite in_app_iff in *; tauto). rewrite FR. destruct (Nat.eqb_spec y x) as [->|]; [contradiction|]. apply T1, Ym.
    + apply (rings_frame h); [|exact RO]. intros y Hy. apply K. intros Z. exact (nodup_disj _ _ _ N Z Hy).
Qed.

Lemma single_next h x O : represents h ([x] :: O) -> next (h x) = x /\ prev (h x) = x /\ root (h x) = x.
Proof.
  intros (_ & R). apply Forall_inv in R. apply ring_cyc in R as (_ & (_ & A1 & A2) & F). cbn in *. apply Forall_inv in F. auto.
Qed.
Lemma nonempties h rs : Forall (ring h) rs -> Forall (fun r => r <> []) rs.
Proof. apply Forall_impl. intros r (H & _). exact H. Qed.
Lemma represents_mid h A r B : represents h (A ++ r :: B) <-> represents h (r :: A ++ B).
Proof. split; apply represents_perm; [symmetry|]; apply Permutation_middle. Qed.
Lemma nonempties_mid h A r B : represents h (A ++ r :: B) -> Forall (fun r => r <> []) (A ++ B).
Proof. rewrite represents_mid. intros (_ & R). apply (nonempties h). exact (Forall_inv_tail R). Qed.
Lemma len_mid (A : list (list nat)) r B : length r <= length (concat (A ++ r :: B)).
Proof. rewrite concat_app. cbn. rewrite !app_length. lia. Qed.

Definition done (h : heap) (rs rs' : list (list nat)) (o : option heap) : Prop :=
  exists h', o = Some h' /\ represents h' rs' /\ Permutation (concat rs) (concat rs') /\ keeps h h' (concat rs).

Lemma incl_mid (A : list (list nat)) r B : incl r (concat (A ++ r :: B)).
Proof. intros y Hy. rewrite concat_app. cbn. rewrite !in_app_iff. auto. Qed.

Theorem remove_ok fuel h x rs : represents h rs -> In x (concat rs) -> length (concat rs) <= fuel ->
  done h rs (s_remove x rs) (remove fuel h x).
Proof.
  intros R I L. destruct (pick x rs I) as (A & l1 & l2 & B & ->). pose proof (nonempties_mid _ _ _ _ R) as NE.
  assert (N := proj1 R). unfold s_remove. rewrite detach_mid by assumption. pose proof R as R'. apply represents_mid in R'.
  assert (P : Permutation ([x] :: (l1 ++ l2) :: A ++ B) ([x] :: A ++ (l1 ++ l2) :: B)) by (constructor; apply Permutation_middle).
  assert (PC : Permutation (concat (A ++ (l1 ++ x :: l2) :: B)) (concat ([x] :: A ++ ne (l1 ++ l2) ++ B))).
  { rewrite (concat_perm _ _ (Permutation_sym (Permutation_middle A B (l1 ++ x :: l2)))).
    rewrite (perm_detach x l1 l2 (A ++ B)). rewrite (concat_perm _ _ P). destruct (l1 ++ l2); cbn [ne app]; [|reflexivity].
    cbn [concat app]. rewrite !concat_app. cbn. reflexivity. }
  destruct (l1 ++ l2) as [|z l] eqn:E.
  - apply app_eq_nil in E as (-> & ->). cbn [app] in *. destruct (single_next h x _ R') as (A1 & _). unfold remove. rewrite A1, Nat.eqb_refl. cbn [negb].
    exists h. split; [reflexivity|]. split; [exact R'|]. split; [exact PC|]. apply keeps_refl.
  - destruct (remove_core fuel h x l1 l2 (A ++ B) R') as (h' & E1 & R1 & K1); [rewrite E; discriminate| |].
    + pose proof (len_mid A (l1 ++ x :: l2) B). lia.
    + exists h'. split; [exact E1|]. split; [|split; [exact PC|]].
      * cbn [ne app]. rewrite E in R1. apply (represents_perm _ _ _ P), R1.
      * apply (keeps_incl _ _ (l1 ++ x :: l2)); [apply incl_mid|exact K1].
Qed.

(** Putting a list after a node of another. *)
Lemma link_core h h1 h' t l1 l2 seg O rt :
  represents h1 ((l1 ++ t :: l2) :: O) -> NoDup (concat (seg :: (l1 ++ t :: l2) :: O)) -> seg <> [] -> cyc h1 seg ->
  rt = root (h1 t) -> keeps h h1 (seg ++ l1 ++ t :: l2) ->
  let q := hd t (l2 ++ l1) in
  (forall y, next (h' y) = if y =? t then hd 0 seg else if y =? last seg 0 then q else next (h1 y)) ->
  (forall y, prev (h' y) = if y =? hd 0 seg then t else if y =? q then last seg 0 else prev (h1 y)) ->
  (forall y, In y seg -> root (h' y) = rt) -> (forall y, ~ In y seg -> root (h' y) = root (h1 y)) ->
  (forall y, data (h' y) = data (h1 y)) ->
  represents h' ((l1 ++ t :: seg ++ l2) :: O) /\ keeps h h' (seg ++ l1 ++ t :: l2).
Proof.
  intros (N & R) ND Hs Cs Rt K q FN FP FR1 FR2 FD.
  pose proof (Forall_inv R) as R0. pose proof (Forall_inv_tail R) as RO. apply ring_cyc in R0 as (_ & C & F).
  assert (N0 : NoDup (l1 ++ t :: l2)) by (cbn in N; exact (nodup_l _ _ N)).
  cbn in ND. rewrite app_assoc in ND. pose proof (nodup_l _ _ ND) as ND'.
  assert (Nm : NoDup (t :: (l2 ++ l1) ++ seg)).
  { apply (Permutation_NoDup (l := seg ++ l1 ++ t :: l2)); [|exact ND']. rewrite Permutation_app_comm. change (t :: (l2 ++ l1) ++ seg) with ((t :: l2 ++ l1) ++ seg).
    apply Permutation_app_tail. symmetry. apply Permutation_cons_app. apply Permutation_app_comm. }
  assert (Ct : cyc h1 (t :: l2 ++ l1)) by (apply cyc_rot in C; exact C).
  assert (St : forall y, In y seg -> ~ In y (l1 ++ t :: l2)).
  { intros y Hy Z. apply in_split in Hy as (a & b & ->). rewrite <- app_assoc in ND'. cbn in ND'. apply NoDup_remove_2 in ND'. apply ND'. apply in_or_app. right. apply in_or_app. right. exact Z. }
  assert (Tq : In q (l1 ++ t :: l2)).
  { unfold q. destruct l2 as [|z l2]; [destruct l1 as [|z l1]|]; cbn; rewrite ?in_app_iff; cbn; auto. }
  assert (Tt : In t (l1 ++ t :: l2)) by (apply in_or_app; right; left; reflexivity).
  assert (Hh : In (hd 0 seg) seg) by (apply hd_In, Hs). assert (Hl : In (last seg 0) seg) by (apply last_In, Hs).
  assert (W : cyc h' (t :: seg ++ l2 ++ l1)).
  { apply (link h1 h' t (l2 ++ l1) seg); try assumption.
    - rewrite FN, Nat.eqb_refl. reflexivity.
    - rewrite FP, Nat.eqb_refl. reflexivity.
    - rewrite FN. destruct (Nat.eqb_spec (last seg 0) t) as [E|_]; [exfalso; rewrite E in Hl; exact (St t Hl Tt)|]. rewrite Nat.eqb_refl. reflexivity.
    - fold q. rewrite FP. destruct (Nat.eqb_spec q (hd 0 seg)) as [E|_]; [exfalso; rewrite <- E in Hh; exact (St _ Hh Tq)|]. rewrite Nat.eqb_refl. reflexivity.
    - intros y Y1 Y2. rewrite FN. destruct (Nat.eqb_spec y t); [contradiction|]. destruct (Nat.eqb_spec y (last seg 0)); [contradiction|reflexivity].
    - fold q. intros y Y1 Y2. rewrite FP. destruct (Nat.eqb_spec y (hd 0 seg)); [contradiction|]. destruct (Nat.eqb_spec y q); [contradiction|reflexivity]. }
  assert (Fr : forall y, ~ In y (seg ++ l1 ++ t :: l2) -> next (h' y) = next (h1 y) /\ prev (h' y) = prev (h1 y) /\ root (h' y) = root (h1 y)).
  { intros y Hy. rewrite in_app_iff in Hy. rewrite FN, FP, FR2 by tauto.
    destruct (Nat.eqb_spec y t) as [->|]; [tauto|]. destruct (Nat.eqb_spec y (last seg 0)) as [->|]; [tauto|].
    destruct (Nat.eqb_spec y (hd 0 seg)) as [->|]; [tauto|]. destruct (Nat.eqb_spec y q) as [->|]; [tauto|]. auto. }
  split; [split|].
  - cbn. apply (Permutation_NoDup (l := (seg ++ l1 ++ t :: l2) ++ concat O)); [|exact ND]. apply Permutation_app_tail.
    rewrite app_assoc, (Permutation_app_comm seg l1), <- app_assoc. apply Permutation_app_head. symmetry. apply (Permutation_middle seg l2 t).
  - constructor.
    + apply ring_cyc. split; [destruct l1; discriminate|]. split.
      * change (t :: seg ++ l2 ++ l1) with ((t :: seg) ++ l2 ++ l1) in W. rewrite app_assoc in W. apply cyc_rot in W. exact W.
      * assert (H0 : hd 0 (l1 ++ t :: seg ++ l2) = hd 0 (l1 ++ t :: l2)) by (destruct l1; reflexivity). rewrite H0.
        rewrite Forall_forall in F. apply Forall_forall. intros y Hy.
        destruct (in_dec Nat.eq_dec y seg) as [Y|Y]; [rewrite FR1 by exact Y; rewrite Rt; apply F; exact Tt|].
        rewrite FR2 by exact Y. apply F. rewrite !in_app_iff in *. cbn [In] in *. rewrite in_app_iff in Hy. tauto.
    + apply (rings_frame h1); [|exact RO]. intros y Hy. apply Fr. intros Z. apply in_split in Hy as (a & b & E). rewrite E in ND.
      rewrite app_assoc in ND. apply NoDup_remove_2 in ND. apply ND. apply in_or_app. left. apply in_or_app. left. exact Z.
  - apply (keeps_trans _ h1); [exact K|]. split; [exact FD|exact Fr].
Qed.
