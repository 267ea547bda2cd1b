From Coq Require Import ZArith List Bool Arith Lia Permutation.
From Verif Require Import CUtil ListModel ListSpec ListProofs ListProofs2.
Import ListNotations.
Local Open Scope nat_scope.

Lemma cyc_next h t m : cyc h (t :: m) -> next (h t) = hd t m /\ prev (h (hd t m)) = t /\ prev (h t) = last m t /\ next (h (last m t)) = t.
Proof.
  intros C. destruct m as [|z m]; [destruct C as (_ & A1 & A2); cbn in *; auto|].
  rewrite split_cons in C. apply cyc_app in C; [|discriminate|discriminate]. destruct C as (_ & (A1 & A2) & _ & (A3 & A4)). cbn [hd] in *.
  change (last [t] 0) with t in *.
  assert (E : forall d, last (z :: m) d = last (z :: m) 0).
  { clear. revert z. induction m as [|y m IH]; intros z d; [reflexivity|]. rewrite !last_cons by discriminate. apply IH. }
  rewrite (E t). auto.
Qed.

Lemma done_perm h rs a b o : Permutation a b -> done h rs a o -> done h rs b o.
Proof.
  intros P (h' & E & R & Q & K). exists h'. split; [exact E|]. split; [apply (represents_perm _ _ _ P), R|].
  split; [rewrite Q; apply concat_perm, P|exact K].
Qed.

Theorem insert_ok fuel h p x rs : represents h rs -> In p (concat rs) -> In x (concat rs) -> length (concat rs) <= fuel ->
  done h rs (s_insert p x rs) (insert fuel h p x).
Proof.
  intros R Ip Ix L. destruct (remove_ok fuel h x rs R Ix L) as (h1 & E1 & R1 & P1 & K1).
  unfold insert. rewrite E1. cbn [bind]. unfold s_insert. destruct (Nat.eqb_spec p x) as [->|Npx].
  - destruct (single_next h1 x _ R1) as (A1 & A2 & A3). eexists. split; [reflexivity|].
    match goal with |- represents ?F _ /\ _ => set (h' := F) end.
    assert (W : forall y, next (h' y) = next (h1 y) /\ prev (h' y) = prev (h1 y) /\ root (h' y) = root (h1 y) /\ data (h' y) = data (h1 y)).
    { intros y. unfold h'. rd. rewrite !Nat.eqb_refl, A1. destruct (Nat.eqb_spec y x) as [->|]; auto. }
    split; [apply (represents_ext h1); [intros y; destruct (W y) as (W1 & W2 & W3 & _); auto|exact R1]|]. split; [exact P1|].
    apply (keeps_trans _ h1); [exact K1|]. split; intros y; [apply W|intros _; destruct (W y) as (W1 & W2 & W3 & _); auto].
  - unfold s_remove in R1, P1. assert (Ip' : In p (concat (detach x rs))).
    { apply (Permutation_in _ P1) in Ip. cbn in Ip. destruct Ip as [E|H]; [congruence|exact H]. }
    destruct (pick p _ Ip') as (A & l1 & l2 & B & E). rewrite E in *.
    assert (ND : NoDup (concat ([x] :: A ++ (l1 ++ p :: l2) :: B))) by exact (proj1 R1).
    rewrite map_place_mid by (cbn in ND; inversion ND; assumption).
    assert (R2 : represents h1 ((l1 ++ p :: l2) :: A ++ B)).
    { apply represents_mid. destruct R1 as (R1a & R1b). split; [cbn in R1a; inversion R1a; assumption|exact (Forall_inv_tail R1b)]. }
    assert (ND2 : NoDup (concat ([x] :: (l1 ++ p :: l2) :: A ++ B))).
    { apply (Permutation_NoDup (l := concat ([x] :: A ++ (l1 ++ p :: l2) :: B))); [|exact ND]. apply concat_perm. constructor. symmetry. apply Permutation_middle. }
    destruct (single_next h1 x _ R1) as (A1 & A2 & A3).
    assert (Cp : cyc h1 (p :: l2 ++ l1)).
    { destruct R2 as (_ & R2). apply Forall_inv in R2. apply ring_cyc in R2 as (_ & C & _). apply cyc_rot in C. exact C. }
    destruct (cyc_next _ _ _ Cp) as (B1 & B2 & _). set (q := hd p (l2 ++ l1)) in *.
    assert (Qx : q <> x).
    { intros Eq. cbn in ND2. apply NoDup_cons_iff in ND2 as (X & _). apply X. apply in_or_app. left. rewrite <- Eq. unfold q.
      destruct l2 as [|z l2]; [destruct l1 as [|z l1]|]; cbn; rewrite ?in_app_iff; cbn; auto. }
    eexists. split; [reflexivity|]. match goal with |- represents ?F _ /\ _ => set (h' := F) end.
    destruct (link_core h1 h1 h' p l1 l2 [x] (A ++ B) (root (h1 p)) R2 ND2) as (W1 & W2); try reflexivity; try discriminate.
    { split; [exact I|]. split; assumption. }
    { apply keeps_refl. }
    { intros y. fold q. cbn [hd last]. unfold h'. rd. rewrite B1. reflexivity. }
    { intros y. fold q. cbn [hd last]. unfold h'. rd. destruct (Nat.eqb_spec p x) as [|_]; [contradiction|]. rewrite B1.
      destruct (Nat.eqb_spec y q) as [->|]; [|reflexivity]. destruct (Nat.eqb_spec q x); [contradiction|reflexivity]. }
    { intros y [<-|[]]. unfold h'. rd. rewrite Nat.eqb_refl. reflexivity. }
    { intros y Hy. unfold h'. rd. destruct (Nat.eqb_spec y x) as [->|]; [exfalso; apply Hy; left; reflexivity|reflexivity]. }
    { intros y. unfold h'. rd. reflexivity. }
    split; [apply represents_mid, W1|]. split.
    + rewrite P1. cbn. rewrite !concat_app. cbn. rewrite <- !app_assoc. cbn. rewrite Permutation_middle. apply Permutation_app_head.
      rewrite Permutation_middle. apply Permutation_app_head. apply perm_swap.
    + apply (keeps_trans _ h1); [exact K1|]. apply (keeps_incl _ _ ([x] ++ l1 ++ p :: l2)); [|exact W2].
      intros y Hy. apply (Permutation_in _ (Permutation_sym P1)). cbn. destruct Hy as [Hy|Hy]; [left; exact Hy|right].
      rewrite concat_app. cbn. rewrite !in_app_iff. cbn in Hy. rewrite in_app_iff in Hy. tauto.
Qed.

(** * Turning *)
Lemma from_mid x l1 l2 : ~ In x l1 -> from x (l1 ++ x :: l2) = x :: l2.
Proof.
  induction l1 as [|y l1 IH]; intros H; cbn; [rewrite Nat.eqb_refl; reflexivity|]. destruct (Nat.eqb_spec y x) as [->|]; [exfalso; apply H; left; reflexivity|].
  apply IH. intros Z. apply H. right. exact Z.
Qed.
Lemma upto_mid x l1 l2 : ~ In x l1 -> upto x (l1 ++ x :: l2) = l1.
Proof.
  induction l1 as [|y l1 IH]; intros H; cbn; [rewrite Nat.eqb_refl; reflexivity|]. destruct (Nat.eqb_spec y x) as [->|]; [exfalso; apply H; left; reflexivity|].
  f_equal. apply IH. intros Z. apply H. right. exact Z.
Qed.
Lemma turn_mid x l1 l2 : ~ In x l1 -> turn x (l1 ++ x :: l2) = x :: l2 ++ l1.
Proof. intros H. unfold turn. rewrite from_mid, upto_mid by exact H. reflexivity. Qed.
Lemma nodup_mid_l (x : nat) l1 l2 : NoDup (l1 ++ x :: l2) -> ~ In x l1 /\ ~ In x l2.
Proof. intros N. apply NoDup_remove_2 in N. rewrite in_app_iff in N. tauto. Qed.
Lemma turn_perm (x : nat) l1 l2 : Permutation (l1 ++ x :: l2) (x :: l2 ++ l1).
Proof. rewrite Permutation_app_comm. reflexivity. Qed.

(** * Roots *)
Lemma nodup_part (A : list (list nat)) r B : NoDup (concat (A ++ r :: B)) -> NoDup r.
Proof. intros N. apply nodup_mid in N. cbn in N. exact (nodup_l _ _ N). Qed.
Lemma list_of_spec h x rs : represents h rs -> In x (concat rs) -> In (list_of x rs) rs /\ In x (list_of x rs).
Proof.
  intros R I. destruct (pick x rs I) as (A & l1 & l2 & B & ->). rewrite list_of_mid by exact (proj1 R).
  split; apply in_or_app; right; left; reflexivity.
Qed.
Lemma list_of_unique h x rs r : represents h rs -> In r rs -> In x r -> list_of x rs = r.
Proof.
  intros R Ir Ix. apply in_split in Ir as (A & B & ->). apply in_split in Ix as (l1 & l2 & ->). apply list_of_mid. exact (proj1 R).
Qed.
Lemma root_list h x rs : represents h rs -> In x (concat rs) -> root (h x) = hd 0 (list_of x rs).
Proof.
  intros R I. destruct (list_of_spec h x rs R I) as (H1 & H2). destruct R as (_ & R). rewrite Forall_forall in R.
  destruct (R _ H1) as (_ & _ & _ & F). rewrite Forall_forall in F. apply F, H2.
Qed.
Lemma list_ne h x rs : represents h rs -> In x (concat rs) -> list_of x rs <> [].
Proof. intros R I. destruct (list_of_spec h x rs R I) as (_ & H). destruct (list_of x rs); [contradiction|discriminate]. Qed.
Lemma root_eq h x y rs : represents h rs -> In x (concat rs) -> In y (concat rs) -> (root (h x) =? root (h y)) = mem y (list_of x rs).
Proof.
  intros R Ix Iy. rewrite (root_list h x rs R Ix), (root_list h y rs R Iy).
  destruct (list_of_spec h x rs R Ix) as (X1 & X2). destruct (list_of_spec h y rs R Iy) as (Y1 & Y2).
  destruct (mem y (list_of x rs)) eqn:M.
  - apply mem_In in M. rewrite (list_of_unique h y rs _ R X1 M). apply Nat.eqb_refl.
  - apply mem_not in M. apply Nat.eqb_neq. intros E. apply M.
    assert (Z : list_of (hd 0 (list_of x rs)) rs = list_of x rs) by (apply (list_of_unique h _ _ _ R X1), hd_In, (list_ne h x rs R Ix)).
    assert (Z' : list_of (hd 0 (list_of y rs)) rs = list_of y rs) by (apply (list_of_unique h _ _ _ R Y1), hd_In, (list_ne h y rs R Iy)).
    rewrite E, Z' in Z. rewrite <- Z. exact Y2.
Qed.

Theorem reroot_ok fuel h x rs : represents h rs -> In x (concat rs) -> length (concat rs) <= fuel ->
  done h rs (s_reroot x rs) (reroot fuel h x).
Proof.
  intros R I L. destruct (pick x rs I) as (A & l1 & l2 & B & ->). unfold s_reroot.
  pose proof (proj1 R) as N. rewrite list_of_mid, others_mid by exact N.
  destruct (nodup_mid_l _ _ _ (nodup_part _ _ _ N)) as (N1 & N2). rewrite turn_mid by exact N1.
  pose proof R as R'. apply represents_mid in R' as (N' & R'). pose proof (Forall_inv R') as R0. pose proof (Forall_inv_tail R') as RO. apply ring_cyc in R0 as (_ & C & F).
  apply cyc_rot in C. change ((x :: l2) ++ l1) with (x :: l2 ++ l1) in C. destruct (cyc_next _ _ _ C) as (_ & _ & B3 & _).
  unfold reroot. assert (Lx : prev (h x) = last (x :: l2 ++ l1) 0).
  { rewrite B3. destruct (l2 ++ l1) as [|z m]; [reflexivity|]. rewrite (last_cons x (z :: m)) by discriminate. clear. revert z. induction m as [|y m IH]; intros z; [reflexivity|]. rewrite !last_cons by discriminate. apply IH. }
  rewrite Lx. pose proof (turn_perm x l1 l2) as TP.
  assert (Nt : NoDup (x :: l2 ++ l1)) by (apply (Permutation_NoDup TP), (nodup_part _ _ _ N)).
  destruct (reroot_range_ok x (x :: l2 ++ l1) fuel h) as (h' & E & S & T); [discriminate|exact Nt|exact (proj1 C)| |].
  { rewrite <- (Permutation_length TP). pose proof (len_mid A (l1 ++ x :: l2) B). lia. }
  assert (P : Permutation (concat (A ++ (l1 ++ x :: l2) :: B)) (concat ((x :: l2 ++ l1) :: A ++ B))).
  { rewrite (concat_perm _ _ (Permutation_sym (Permutation_middle A B (l1 ++ x :: l2)))). cbn [concat]. apply Permutation_app_tail, TP. }
  exists h'. split; [exact E|]. split; [|split; [exact P|]].
  - split; [apply (Permutation_NoDup P), N|]. constructor.
    + apply ring_cyc. split; [discriminate|]. split; [apply (cyc_ext h); [discriminate|intros y _; destruct (S y) as (S1 & S2 & _); auto|exact C]|].
      apply Forall_forall. intros y Hy. rewrite T. apply mem_In in Hy. rewrite Hy. reflexivity.
    + apply (rings_frame h); [|exact RO]. intros y Hy. destruct (S y) as (S1 & S2 & _). split; [exact S1|]. split; [exact S2|].
      rewrite T. replace (mem y (x :: l2 ++ l1)) with false; [reflexivity|]. symmetry. apply mem_not. intros Z. apply (Permutation_in _ (Permutation_sym TP)) in Z. exact (nodup_disj _ _ _ N' Z Hy).
  - split; [intros y; apply S|]. intros y Hy. destruct (S y) as (S1 & S2 & _). split; [exact S1|]. split; [exact S2|].
    rewrite T. replace (mem y (x :: l2 ++ l1)) with false; [reflexivity|]. symmetry. apply mem_not. intros Z. apply Hy. apply (Permutation_in _ (Permutation_sym P)). cbn. apply (in_or_app (x :: l2 ++ l1)). left. exact Z.
Qed.

Lemma mem_others y (A : list (list nat)) r B : In y (concat (A ++ r :: B)) -> mem y r = false -> In y (concat (A ++ B)).
Proof. intros H M. apply mem_not in M. rewrite !concat_app in *. cbn in H. rewrite !in_app_iff in *. tauto. Qed.

Theorem splice_ok fuel h t f rs : represents h rs -> In t (concat rs) -> In f (concat rs) -> length (concat rs) <= fuel ->
  done h rs (s_splice t f rs) (splice fuel h t f).
Proof.
  intros R It If L. unfold splice. rewrite (root_eq h f t rs R If It). unfold s_splice. destruct (mem t (list_of f rs)) eqn:M.
  { exists h. split; [reflexivity|]. split; [exact R|]. split; [reflexivity|apply keeps_refl]. }
  destruct (pick f rs If) as (A & m1 & m2 & B & ->). pose proof (proj1 R) as N. pose proof (nonempties_mid _ _ _ _ R) as NE.
  rewrite list_of_mid in * by exact N. rewrite others_mid by exact N.
  destruct (nodup_mid_l _ _ _ (nodup_part _ _ _ N)) as (N1 & N2). rewrite turn_mid by exact N1.
  pose proof R as R'. apply represents_mid in R' as (N' & R'). pose proof (Forall_inv R') as R0. pose proof (Forall_inv_tail R') as RO. apply ring_cyc in R0 as (_ & C & F).
  apply cyc_rot in C. change ((f :: m2) ++ m1) with (f :: m2 ++ m1) in C. destruct (cyc_next _ _ _ C) as (B1 & _ & B3 & _).
  pose proof (turn_perm f m1 m2) as TP. assert (Nf : NoDup (f :: m2 ++ m1)) by (apply (Permutation_NoDup TP), (nodup_part _ _ _ N)).
  rewrite B1. destruct (m2 ++ m1) as [|z m] eqn:Em.
  - cbn [hd]. rewrite Nat.eqb_refl. apply app_eq_nil in Em as (-> & ->). cbn [app] in *.
    destruct (insert_ok fuel h t f _ R It If L) as (h' & E & R1 & P1 & K1). exists h'. split; [exact E|].
    assert (Q : s_insert t f (A ++ [f] :: B) = map (place t [f]) (A ++ B)).
    { unfold s_insert. destruct (Nat.eqb_spec t f) as [->|]; [apply mem_not in M; exfalso; apply M; left; reflexivity|].
      f_equal. exact (detach_mid f A [] [] B N NE). }
    rewrite Q in *. auto.
  - cbn [hd]. destruct (Nat.eqb_spec f z) as [E|_]; [exfalso; inversion Nf as [|? ? X _]; subst; apply X; left; reflexivity|].
    pose proof (mem_others t A _ B It M) as It'. destruct (pick t _ It') as (A' & l1 & l2 & B' & EA).
    rewrite EA in *. set (seg := f :: z :: m) in *.
    assert (Lf : prev (h f) = last seg 0).
    { rewrite B3. unfold seg. rewrite (last_cons f (z :: m)) by discriminate. clear. revert z. induction m as [|y m IH]; intros z; [reflexivity|]. rewrite !last_cons by discriminate. apply IH. }
    rewrite Lf. destruct (reroot_range_ok (root (h t)) seg fuel h) as (h1 & E1 & S & T); [discriminate|exact Nf|exact (proj1 C)| |].
    { rewrite <- (Permutation_length TP). pose proof (len_mid A (m1 ++ f :: m2) B). lia. }
    change (hd 0 seg) with f in E1. rewrite E1. cbn [bind].
    assert (ND : NoDup (concat (seg :: (l1 ++ t :: l2) :: A' ++ B'))).
    { apply (Permutation_NoDup (l := concat ((m1 ++ f :: m2) :: A' ++ (l1 ++ t :: l2) :: B'))); [|exact N'].
      cbn [concat]. apply Permutation_app; [exact TP|]. apply (concat_perm (A' ++ (l1 ++ t :: l2) :: B') ((l1 ++ t :: l2) :: A' ++ B')). symmetry. apply Permutation_middle. }
    assert (NDt : forall y, In y seg -> ~ In y (concat ((l1 ++ t :: l2) :: A' ++ B'))) by (intros y; apply (nodup_disj _ _ _ ND)).
    assert (Tt : In t (concat ((l1 ++ t :: l2) :: A' ++ B'))) by (cbn; apply in_or_app; left; apply in_or_app; right; left; reflexivity).
    assert (R1 : represents h1 ((l1 ++ t :: l2) :: A' ++ B')).
    { split; [cbn in ND |- *; exact (nodup_r seg _ ND)|]. apply (rings_frame h).
      - intros y Hy. destruct (S y) as (S1 & S2 & _). split; [exact S1|]. split; [exact S2|]. rewrite T.
        replace (mem y seg) with false; [reflexivity|]. symmetry. apply mem_not. intros Z. exact (NDt y Z Hy).
      - unfold rings. apply Forall_app in RO as (RO1 & RO2). inversion RO2; subst. constructor; [assumption|apply Forall_app; split; assumption]. }
    assert (Ct : cyc h1 (t :: l2 ++ l1)).
    { destruct R1 as (_ & R1). apply Forall_inv in R1. apply ring_cyc in R1 as (_ & C1 & _). apply cyc_rot in C1. exact C1. }
    destruct (cyc_next _ _ _ Ct) as (D1 & D2 & _). set (q := hd t (l2 ++ l1)) in *.
    assert (Iq : In q (concat ((l1 ++ t :: l2) :: A' ++ B'))).
    { cbn. apply in_or_app. left. unfold q. destruct l2 as [|w l2]; [destruct l1 as [|w l1]|]; cbn; rewrite ?in_app_iff; cbn; auto. }
    assert (If' : In f seg) by (left; reflexivity). assert (Il : In (last seg 0) seg) by (apply last_In; discriminate).
    assert (Tl : t <> last seg 0) by (intros E; rewrite <- E in Il; exact (NDt _ Il Tt)).
    assert (Tf : t <> f) by (intros E; rewrite <- E in If'; exact (NDt _ If' Tt)).
    assert (Qf : q <> f) by (intros E; rewrite <- E in If'; exact (NDt _ If' Iq)).
    assert (Ql : q <> last seg 0) by (intros E; rewrite <- E in Il; exact (NDt _ Il Iq)).
    assert (Pf : prev (h1 f) = last seg 0) by (rewrite (proj1 (proj2 (S f))); exact Lf).
    assert (G : (let h0 := set_next h1 (prev (h1 f)) (next (h1 t)) in
                 let h2 := set_prev h0 (next (h0 t)) (prev (h0 f)) in
                 let h3 := set_next h2 t f in Some (set_prev h3 f t)) =
                Some (set_prev (set_next (set_prev (set_next h1 (last seg 0) q) q (last seg 0)) t f) f t)).
    { cbv zeta. rewrite Pf, D1. rewrite next_set_next. destruct (Nat.eqb_spec t (last seg 0)); [contradiction|]. rewrite D1, prev_set_next, Pf. reflexivity. }
    cbv zeta in G. rewrite G. clear G. set (h' := set_prev _ f t).
    destruct (link_core h h1 h' t l1 l2 seg (A' ++ B') (root (h1 t)) R1 ND) as (W1 & W2); try reflexivity; try discriminate.
    { apply (cyc_ext h); [discriminate|intros y _; destruct (S y) as (S1 & S2 & _); auto|exact C]. }
    { split; [intros y; apply S|]. intros y Hy. destruct (S y) as (S1 & S2 & _). split; [exact S1|]. split; [exact S2|]. rewrite T.
      replace (mem y seg) with false; [reflexivity|]. symmetry. apply mem_not. intros Z. apply Hy. apply in_or_app. left. exact Z. }
    { intros y. fold q. change (hd 0 seg) with f. unfold h'. rd. reflexivity. }
    { intros y. fold q. change (hd 0 seg) with f. unfold h'. rd. reflexivity. }
    { intros y Hy. unfold h'. rd. rewrite !T. apply mem_In in Hy. rewrite Hy.
      replace (mem t seg) with false; [reflexivity|]. symmetry. apply mem_not. intros Z. exact (NDt t Z Tt). }
    { intros y Hy. unfold h'. rd. reflexivity. }
    { intros y. unfold h'. rd. reflexivity. }
    rewrite map_place_mid.
    2:{ cbn in N'. exact (nodup_r _ _ N'). }
    assert (PP : Permutation (concat (A ++ (m1 ++ f :: m2) :: B)) (concat (A' ++ (l1 ++ t :: seg ++ l2) :: B'))).
    { rewrite (concat_perm _ _ (Permutation_sym (Permutation_middle A B (m1 ++ f :: m2)))). rewrite EA.
      rewrite (concat_perm (A' ++ (l1 ++ t :: seg ++ l2) :: B') ((l1 ++ t :: seg ++ l2) :: A' ++ B')) by (symmetry; apply Permutation_middle).
      cbn [concat]. rewrite TP. fold seg.
      rewrite (concat_perm (A' ++ (l1 ++ t :: l2) :: B') ((l1 ++ t :: l2) :: A' ++ B')) by (symmetry; apply Permutation_middle).
      cbn [concat]. rewrite app_assoc. apply Permutation_app_tail.
      rewrite app_assoc, (Permutation_app_comm seg l1), <- app_assoc. apply Permutation_app_head. symmetry. apply (Permutation_middle seg l2 t). }
    exists h'. split; [reflexivity|]. split; [apply represents_mid, W1|]. split; [exact PP|].
    apply (keeps_incl _ _ (seg ++ l1 ++ t :: l2)); [|exact W2]. intros y Hy. apply (Permutation_in _ (Permutation_sym PP)).
    rewrite concat_app. cbn [concat]. rewrite !in_app_iff in *. cbn [In] in *. rewrite in_app_iff in *. tauto.
Qed.
