From Coq Require Import ZArith List Bool Arith Lia Permutation.
From Verif Require Import CUtil ListModel ListSpec ListProofs ListProofs2 ListProofs3.
Import ListNotations.
Local Open Scope nat_scope.

Lemma cut_loop_ok rt : forall seg fuel h n, seg <> [] -> NoDup seg -> chain h (n :: seg) -> length seg <= fuel ->
  cut_loop fuel h n (last seg 0) rt = Some (mem rt seg).
Proof.
  induction seg as [|x seg IH]; intros fuel h n NE N C L; [congruence|]. destruct fuel as [|fuel]; [cbn in L; lia|].
  cbn [cut_loop]. destruct C as ((A1 & A2) & C). rewrite A1. change (mem rt (x :: seg)) with ((rt =? x) || mem rt seg).
  destruct (Nat.eqb_spec x rt) as [->|X]; [rewrite Nat.eqb_refl; reflexivity|]. destruct (Nat.eqb_spec rt x) as [E|_]; [congruence|]. cbn [orb].
  destruct seg as [|y seg].
  - cbn [last]. rewrite Nat.eqb_refl. reflexivity.
  - rewrite (last_cons x (y :: seg)) by discriminate. apply NoDup_cons_iff in N as (Nx & Ny).
    destruct (Nat.eqb_spec x (last (y :: seg) 0)) as [E|_]; [exfalso; apply Nx; rewrite E; apply last_In; discriminate|].
    apply IH; [discriminate|exact Ny|exact C|cbn in *; lia].
Qed.
Lemma cyc_prev h a m : cyc h (a :: m) -> prev (h a) = last (a :: m) 0 /\ next (h (last (a :: m) 0)) = a.
Proof. intros (_ & A1 & A2). auto. Qed.

Theorem cut_ok fuel h a b rs : represents h rs -> In a (concat rs) -> In b (concat rs) -> length (concat rs) <= fuel ->
  done h rs (s_cut a b rs) (cut fuel h a b).
Proof.
  intros R Ia Ib L. unfold cut. rewrite (root_eq h a b rs R Ia Ib). unfold s_cut. destruct (mem b (list_of a rs)) eqn:M.
  2:{ exists h. split; [reflexivity|]. split; [exact R|]. split; [reflexivity|apply keeps_refl]. }
  cbn [negb]. destruct (pick a rs Ia) as (A & m1 & m2 & B & ->). pose proof (proj1 R) as N. pose proof (nonempties_mid _ _ _ _ R) as NE.
  rewrite list_of_mid in * by exact N. rewrite others_mid by exact N. pose proof (nodup_part _ _ _ N) as Np.
  destruct (nodup_mid_l _ _ _ Np) as (N1 & N2). rewrite turn_mid by exact N1.
  pose proof R as R'. apply represents_mid in R' as (N' & R'). pose proof (Forall_inv R') as R0. pose proof (Forall_inv_tail R') as RO. apply ring_cyc in R0 as (_ & C & F).
  apply cyc_rot in C. change ((a :: m2) ++ m1) with (a :: m2 ++ m1) in C. destruct (cyc_prev _ _ _ C) as (B3 & _).
  pose proof (turn_perm a m1 m2) as TP. assert (NT : NoDup (a :: m2 ++ m1)) by (apply (Permutation_NoDup TP), Np).
  set (rt := hd 0 (m1 ++ a :: m2)) in *.
  assert (Ra : root (h a) = rt) by (rewrite Forall_forall in F; apply F, in_or_app; right; left; reflexivity).
  assert (Irt : In rt (a :: m2 ++ m1)) by (apply (Permutation_in _ TP), hd_In; destruct m1; discriminate).
  apply mem_In in M. apply (Permutation_in _ TP) in M. apply in_split in M as (s & rest & ET). rewrite ET in *.
  destruct (nodup_mid_l _ _ _ NT) as (S1 & S2). rewrite upto_mid, from_mid by exact S1. cbn [tl].
  rewrite B3. rewrite (last_app s (b :: rest)) by discriminate.
  destruct rest as [|q rest'] eqn:Er.
  { cbn [last]. rewrite Nat.eqb_refl. exists h. split; [reflexivity|]. split; [exact R|]. split; [reflexivity|apply keeps_refl]. }
  rewrite <- Er in *. assert (Hr : rest <> []) by (subst rest; discriminate).
  assert (Lr : last (b :: rest) 0 = last rest 0) by (apply last_cons, Hr). rewrite Lr in *.
  assert (Ilr : In (last rest 0) rest) by (apply last_In, Hr).
  destruct (Nat.eqb_spec (last rest 0) b) as [E|_]; [exfalso; rewrite E in Ilr; exact (S2 Ilr)|].
  destruct (Nat.eqb_spec a b) as [Eab|Nab].
  - (* a single node *)
    destruct s as [|y s]; [|exfalso; injection ET as -> _; apply S1; left; exact Eab].
    subst b. cbn [app] in *. injection ET as ET.
    apply (done_perm _ _ (s_remove a (A ++ (m1 ++ a :: m2) :: B))); [|apply remove_ok; assumption].
    unfold s_remove. rewrite detach_mid by assumption. constructor.
    replace (if mem rt [a] then rest else turn rt rest) with (m1 ++ m2).
    + destruct (m1 ++ m2) as [|w l] eqn:Em; [|cbn [ne app]; symmetry; apply Permutation_middle].
      exfalso. apply app_eq_nil in Em as (-> & ->). cbn in ET. congruence.
    + unfold rt. destruct m1 as [|r m1].
      * cbn. rewrite Nat.eqb_refl. cbn. rewrite app_nil_r in ET. congruence.
      * cbn [hd app]. assert (Nra : r <> a) by (intros E; apply N1; left; exact E).
        cbn. destruct (Nat.eqb_spec r a); [contradiction|]. cbn. rewrite <- ET. rewrite turn_mid; [reflexivity|].
        cbn in Np. inversion Np as [|? ? X _]; subst. intros Z. apply X. apply in_or_app. right. right. exact Z.
  - set (seg := s ++ [b]). assert (ES : s ++ b :: rest = seg ++ rest) by (unfold seg; rewrite <- app_assoc; reflexivity).
    rewrite ES in *. assert (Hs : seg <> []) by (unfold seg; destruct s; discriminate).
    assert (Ha : hd 0 seg = a).
    { assert (E : hd 0 (a :: m2 ++ m1) = hd 0 (seg ++ rest)) by (rewrite ET; reflexivity). cbn in E. rewrite hd_app in E by exact Hs. congruence. }
    assert (Hb : last seg 0 = b) by (unfold seg; apply last_last).
    pose proof (nodup_l _ _ NT) as Ns. pose proof (nodup_r _ _ NT) as Nr.
    assert (SR : forall y, In y seg -> In y rest -> False).
    { intros y Y1 Y2. apply in_split in Y1 as (s1 & s2 & E1). rewrite E1, <- app_assoc in NT. cbn in NT. apply NoDup_remove_2 in NT. apply NT. rewrite app_assoc. apply in_or_app. right. exact Y2. }
    pose proof C as C'. apply cyc_app in C' as (Cs & (D1 & D2) & Cr & (D3 & D4)); [|exact Hs|exact Hr]. rewrite Ha, Hb in *.
    assert (Lens : length seg <= fuel /\ length rest <= fuel).
    { assert (length (m1 ++ a :: m2) <= fuel) by (pose proof (len_mid A (m1 ++ a :: m2) B); lia).
      rewrite (Permutation_length TP), app_length in H. lia. }
    assert (CL : cut_loop fuel h (last rest 0) b (root (h a)) = Some (mem rt seg)).
    { rewrite Ra. rewrite <- Hb at 1. apply cut_loop_ok; [exact Hs|exact Ns| |apply Lens].
      change (last rest 0 :: seg) with ([last rest 0] ++ seg). apply chain_app; [discriminate|exact Hs|]. split; [exact I|]. split; [|exact Cs]. rewrite Ha. split; assumption. }
    rewrite CL. cbn [bind]. rewrite D1.
    assert (H1 : exists h1, (if mem rt seg then reroot_range fuel h (hd 0 rest) (last rest 0) (hd 0 rest) else Some h) = Some h1 /\
       same_links h h1 /\ (forall y, ~ In y rest -> root (h1 y) = root (h y)) /\
       (forall y, In y rest -> root (h1 y) = hd 0 (if mem rt seg then rest else turn rt rest))).
    { destruct (mem rt seg) eqn:Mr.
      - destruct (reroot_range_ok (hd 0 rest) rest fuel h Hr Nr Cr (proj2 Lens)) as (h1 & E & S & T). exists h1.
        split; [exact E|]. split; [exact S|]. split; intros y Hy; rewrite T; [apply mem_not in Hy|apply mem_In in Hy]; rewrite Hy; reflexivity.
      - exists h. split; [reflexivity|]. split; [intros y; auto|]. split; [auto|]. intros y Hy.
        apply mem_not in Mr. rewrite in_app_iff in Irt. destruct Irt as [Irt|Irt]; [contradiction|].
        apply in_split in Irt as (u & v & Ev). rewrite Ev in *. rewrite turn_mid by exact (proj1 (nodup_mid_l _ _ _ Nr)). cbn [hd].
        rewrite Forall_forall in F. apply F. apply (Permutation_in _ (Permutation_sym TP)). apply in_or_app. right. exact Hy. }
    destruct H1 as (h1 & E1 & S & T1 & T2). rewrite E1. cbn [bind].
    assert (Pa : prev (h1 a) = last rest 0) by (rewrite (proj1 (proj2 (S a))); exact D4).
    assert (Qb : next (h1 b) = hd 0 rest) by (rewrite (proj1 (S b)); exact D1).
    assert (Ias : In a seg) by (rewrite <- Ha; apply hd_In, Hs). assert (Ibs : In b seg) by (rewrite <- Hb; apply last_In, Hs).
    assert (Ihr : In (hd 0 rest) rest) by (apply hd_In, Hr).
    assert (X1 : b <> last rest 0) by (intros E; rewrite <- E in Ilr; exact (SR _ Ibs Ilr)).
    assert (X2 : a <> last rest 0) by (intros E; rewrite <- E in Ilr; exact (SR _ Ias Ilr)).
    assert (X3 : b <> hd 0 rest) by (intros E; rewrite <- E in Ihr; exact (SR _ Ibs Ihr)).
    assert (X4 : a <> hd 0 rest) by (intros E; rewrite <- E in Ihr; exact (SR _ Ias Ihr)).
    assert (G : (let h0 := set_next h1 (prev (h1 a)) (next (h1 b)) in
                 let h2 := set_prev h0 (next (h0 b)) (prev (h0 a)) in
                 let h3 := set_prev h2 a b in let h4 := set_next h3 b a in reroot_range fuel h4 a b a) =
                reroot_range fuel (set_next (set_prev (set_prev (set_next h1 (last rest 0) (hd 0 rest)) (hd 0 rest) (last rest 0)) a b) b a) a b a).
    { cbv zeta. rewrite Pa, Qb. rewrite next_set_next. destruct (Nat.eqb_spec b (last rest 0)); [contradiction|]. rewrite Qb, prev_set_next, Pa. reflexivity. }
    cbv zeta in G. rewrite G. clear G. set (h2 := set_next _ b a).
    assert (FN : forall y, next (h2 y) = if y =? b then a else if y =? last rest 0 then hd 0 rest else next (h y)).
    { intros y. unfold h2. rd. rewrite (proj1 (S y)). reflexivity. }
    assert (FP : forall y, prev (h2 y) = if y =? a then b else if y =? hd 0 rest then last rest 0 else prev (h y)).
    { intros y. unfold h2. rd. rewrite (proj1 (proj2 (S y))). reflexivity. }
    assert (FR : forall y, root (h2 y) = root (h1 y)) by (intros y; unfold h2; rd; reflexivity).
    assert (FD : forall y, data (h2 y) = data (h y)) by (intros y; unfold h2; rd; apply S).
    clearbody h2. destruct (unlink h h2 seg rest) as (U1 & U2); try assumption.
    { rewrite FN. destruct (Nat.eqb_spec (last rest 0) b); [congruence|]. rewrite Nat.eqb_refl. reflexivity. }
    { rewrite FP. destruct (Nat.eqb_spec (hd 0 rest) a); [congruence|]. rewrite Nat.eqb_refl. reflexivity. }
    { rewrite Ha, Hb, FN, Nat.eqb_refl. reflexivity. }
    { rewrite Ha, Hb, FP, Nat.eqb_refl. reflexivity. }
    { rewrite Hb. intros y Y1 Y2. rewrite FN. destruct (Nat.eqb_spec y b); [contradiction|]. destruct (Nat.eqb_spec y (last rest 0)); [contradiction|reflexivity]. }
    { rewrite Ha. intros y Y1 Y2. rewrite FP. destruct (Nat.eqb_spec y a); [contradiction|]. destruct (Nat.eqb_spec y (hd 0 rest)); [contradiction|reflexivity]. }
    destruct (reroot_range_ok a seg fuel h2 Hs Ns (proj1 U1) (proj1 Lens)) as (h' & E' & S' & T'). rewrite Ha, Hb in E'.
    set (X := if mem rt seg then rest else turn rt rest) in *.
    assert (PX : Permutation rest X /\ cyc h2 X).
    { unfold X. destruct (mem rt seg) eqn:Mr; [split; [reflexivity|exact U2]|]. apply mem_not in Mr. rewrite in_app_iff in Irt. destruct Irt as [Irt|Irt]; [contradiction|].
      apply in_split in Irt as (u & v & Ev). rewrite Ev in *. rewrite turn_mid by exact (proj1 (nodup_mid_l _ _ _ Nr)). split; [apply turn_perm|].
      apply cyc_rot in U2. exact U2. }
    destruct PX as (PX & CX).
    assert (HX : X <> []) by (intros E; rewrite E in PX; symmetry in PX; apply Permutation_nil in PX; contradiction).
    assert (PC : Permutation (concat (A ++ (m1 ++ a :: m2) :: B)) (concat (seg :: X :: A ++ B))).
    { rewrite (concat_perm _ _ (Permutation_sym (Permutation_middle A B (m1 ++ a :: m2)))). cbn [concat]. rewrite TP, <- PX, app_assoc. reflexivity. }
    assert (Fr : forall y, ~ In y (seg ++ rest) -> next (h' y) = next (h y) /\ prev (h' y) = prev (h y) /\ root (h' y) = root (h y)).
    { intros y Hy. rewrite in_app_iff in Hy. destruct (S' y) as (S1' & S2' & _). rewrite S1', S2', T', FN, FP, FR.
      destruct (Nat.eqb_spec y b) as [->|]; [tauto|]. destruct (Nat.eqb_spec y a) as [->|]; [tauto|].
      destruct (Nat.eqb_spec y (last rest 0)) as [->|]; [tauto|]. destruct (Nat.eqb_spec y (hd 0 rest)) as [->|]; [tauto|].
      replace (mem y seg) with false by (symmetry; apply mem_not; tauto). rewrite T1 by tauto. auto. }
    exists h'. split; [exact E'|]. split; [|split; [exact PC|]].
    + split; [apply (Permutation_NoDup PC), N|]. constructor; [|constructor].
      * apply ring_cyc. split; [exact Hs|]. split; [apply (cyc_ext h2); [exact Hs|intros y _; destruct (S' y) as (Q1 & Q2 & _); auto|exact U1]|].
        apply Forall_forall. intros y Hy. rewrite T'. apply mem_In in Hy. rewrite Hy. symmetry. exact Ha.
      * apply ring_cyc. split; [exact HX|]. split; [apply (cyc_ext h2); [exact HX|intros y _; destruct (S' y) as (Q1 & Q2 & _); auto|exact CX]|].
        apply Forall_forall. intros y Hy. apply (Permutation_in _ (Permutation_sym PX)) in Hy. rewrite T'.
        replace (mem y seg) with false by (symmetry; apply mem_not; intros Z; exact (SR _ Z Hy)). rewrite FR. apply T2, Hy.
      * apply (rings_frame h); [|exact RO]. intros y Hy. apply Fr. intros Z. apply (Permutation_in _ (Permutation_sym TP)) in Z. exact (nodup_disj _ _ _ N' Z Hy).
    + split; [intros y; rewrite (proj2 (proj2 (S' y))); apply FD|]. intros y Hy. apply Fr. intros Z. apply Hy. apply (Permutation_in _ (Permutation_sym TP)) in Z. apply incl_mid, Z.
Qed.

Lemma done_trans h h1 rs rs1 rs2 o1 (f : heap -> option heap) :
  o1 = Some h1 /\ represents h1 rs1 /\ Permutation (concat rs) (concat rs1) /\ keeps h h1 (concat rs) ->
  done h1 rs1 rs2 (f h1) -> done h rs rs2 (let* h := o1 in f h).
Proof.
  intros (-> & R1 & P1 & K1) (h2 & E & R2 & P2 & K2). exists h2. split; [exact E|]. split; [exact R2|]. split; [rewrite P1; exact P2|].
  apply (keeps_trans _ h1); [exact K1|]. apply (keeps_incl _ _ (concat rs1)); [|exact K2]. intros y Hy. apply (Permutation_in _ (Permutation_sym P1)), Hy.
Qed.

Theorem replace_ok fuel h o n rs : represents h rs -> In o (concat rs) -> In n (concat rs) -> length (concat rs) <= fuel ->
  done h rs (s_replace o n rs) (replace fuel h o n).
Proof.
  intros R Io In' L. destruct (insert_ok fuel h o n rs R Io In' L) as (h1 & E1 & R1 & P1 & K1).
  unfold replace, s_replace. apply (done_trans h h1 rs (s_insert o n rs)); [auto|].
  apply remove_ok; [exact R1|apply (Permutation_in _ P1), Io|rewrite <- (Permutation_length P1); exact L].
Qed.

Lemma ring_of h x rs : represents h rs -> In x (concat rs) -> ring h (list_of x rs).
Proof. intros R I. destruct (list_of_spec h x rs R I) as (H1 & _). destruct R as (_ & R). rewrite Forall_forall in R. apply R, H1. Qed.
Lemma in_list h x y rs : represents h rs -> In x (concat rs) -> In y (list_of x rs) -> In y (concat rs).
Proof. intros R I H. apply in_concat. exists (list_of x rs). split; [apply (list_of_spec h x rs R I)|exact H]. Qed.

Definition done2 (h : heap) (rs rs' : list (list nat)) (x : nat) (o : option (heap * nat)) : Prop :=
  exists h', o = Some (h', x) /\ represents h' rs' /\ Permutation (concat rs) (concat rs') /\ keeps h h' (concat rs).
Lemma done_2 h rs rs' x (o : option heap) : done h rs rs' o -> done2 h rs rs' x (let* h := o in Some (h, x)).
Proof. intros (h' & -> & H). exists h'. split; [reflexivity|exact H]. Qed.

Theorem step_ok fuel h o rs : represents h rs -> Forall (fun x => In x (concat rs)) (operands o) -> length (concat rs) <= fuel ->
  done2 h rs (fst (s_step rs o)) (snd (s_step rs o)) (step fuel h o).
Proof.
  intros R F L.
  assert (POP : forall s, In s (concat rs) -> done2 h rs (fst (s_step rs (Pop s))) (snd (s_step rs (Pop s))) (pop fuel h s)).
  { intros s Is. unfold pop, isempty. rewrite (root_list h s rs R Is). cbn [s_step].
    pose proof (ring_of h s rs R Is) as Q. destruct (list_of s rs) as [|rt [|x l]] eqn:El.
    - destruct Q as (X & _). congruence.
    - apply ring_cyc in Q as (_ & C & _). destruct (cyc_next _ _ _ C) as (A1 & _). cbn [hd] in *. rewrite A1, Nat.eqb_refl.
      exists h. split; [reflexivity|]. split; [exact R|]. split; [reflexivity|apply keeps_refl].
    - apply ring_cyc in Q as (_ & C & _). destruct (cyc_next _ _ _ C) as (A1 & _). cbn [hd] in *. rewrite A1.
      assert (Ix : In x (concat rs)) by (apply (in_list h s x rs R Is); rewrite El; right; left; reflexivity).
      assert (Nx : rt <> x).
      { intros ->. destruct (list_of_spec h s rs R Is) as (Y & _). rewrite El in Y. apply in_split in Y as (A & B & E). destruct R as (N & _). rewrite E in N. apply nodup_part in N. inversion N as [|? ? Z _]; subst. apply Z. left. reflexivity. }
      destruct (Nat.eqb_spec rt x); [contradiction|]. cbn [fst snd]. apply done_2. apply remove_ok; assumption. }
  destruct o as [x|p x|a b|t f|o n|x|s x|s|q x|q]; cbn [operands] in F; cbn [step].
  - apply done_2, remove_ok; [exact R|exact (Forall_inv F)|exact L].
  - apply done_2, insert_ok; [exact R|exact (Forall_inv F)|exact (Forall_inv (Forall_inv_tail F))|exact L].
  - apply done_2, cut_ok; [exact R|exact (Forall_inv F)|exact (Forall_inv (Forall_inv_tail F))|exact L].
  - apply done_2, splice_ok; [exact R|exact (Forall_inv F)|exact (Forall_inv (Forall_inv_tail F))|exact L].
  - apply done_2, replace_ok; [exact R|exact (Forall_inv F)|exact (Forall_inv (Forall_inv_tail F))|exact L].
  - apply done_2, reroot_ok; [exact R|exact (Forall_inv F)|exact L].
  - cbn [s_step fst snd]. unfold push. pose proof (Forall_inv F) as Is. rewrite (root_list h s rs R Is). apply done_2, insert_ok; [exact R| |exact (Forall_inv (Forall_inv_tail F))|exact L].
    apply (in_list h s _ rs R Is), hd_In, (list_ne h s rs R Is).
  - apply POP. exact (Forall_inv F).
  - cbn [s_step fst snd]. unfold enqueue. pose proof (Forall_inv F) as Is. rewrite (root_list h q rs R Is).
    pose proof (ring_of h q rs R Is) as Q. destruct Q as (NE & _ & (A1 & A2) & _). rewrite A2.
    apply done_2, insert_ok; [exact R| |exact (Forall_inv (Forall_inv_tail F))|exact L].
    apply (in_list h q _ rs R Is), last_In, NE.
  - apply POP. exact (Forall_inv F).
Qed.

Theorem run_ok fuel : forall ops h rs, represents h rs -> Forall (fun o => Forall (fun x => In x (concat rs)) (operands o)) ops -> length (concat rs) <= fuel ->
  exists h', run fuel h ops = Some (h', snd (s_run rs ops)) /\ represents h' (fst (s_run rs ops)) /\ Permutation (concat rs) (concat (fst (s_run rs ops))) /\ keeps h h' (concat rs).
Proof.
  induction ops as [|o ops IH]; intros h rs R F L.
  - exists h. split; [reflexivity|]. split; [exact R|]. split; [reflexivity|apply keeps_refl].
  - destruct (step_ok fuel h o rs R (Forall_inv F) L) as (h1 & E1 & R1 & P1 & K1). cbn [run s_run]. rewrite E1. cbn [bind].
    destruct (s_step rs o) as (rs1, x). cbn [fst snd] in *.
    destruct (IH h1 rs1 R1) as (h2 & E2 & R2 & P2 & K2).
    + apply Forall_inv_tail in F. revert F. apply Forall_impl. intros o'. apply Forall_impl. intros y. apply Permutation_in, P1.
    + rewrite <- (Permutation_length P1). exact L.
    + rewrite E2. cbn [bind]. destruct (s_run rs1 ops) as (rs2, xs). cbn [fst snd] in *. exists h2. split; [reflexivity|]. split; [exact R2|].
      split; [rewrite P1; exact P2|]. apply (keeps_trans _ h1); [exact K1|]. apply (keeps_incl _ _ (concat rs1)); [|exact K2].
      intros y Hy. apply (Permutation_in _ (Permutation_sym P1)), Hy.
Qed.

(** * Representation means integrity *)
Lemma follow_chain h : forall l x y, chain h (x :: l ++ [y]) -> follow h (S (length l)) x = y.
Proof.
  induction l as [|z l IH]; intros x y C.
  - destruct C as ((A1 & _) & _). exact A1.
  - destruct C as ((A1 & _) & C). cbn [length]. change (follow h (S (S (length l))) x) with (follow h (S (length l)) (next (h x))). rewrite A1. apply IH, C.
Qed.
Theorem represents_integral h rs : represents h rs -> integral h (concat rs).
Proof.
  intros R x Ix. destruct (pick x rs Ix) as (A & l1 & l2 & B & ->).
  pose proof R as R'. apply represents_mid in R' as (N' & R'). pose proof (Forall_inv R') as R0. apply ring_cyc in R0 as (_ & C & F).
  assert (In' : forall y, In y (x :: l2 ++ l1) -> In y (concat (A ++ (l1 ++ x :: l2) :: B)) /\ root (h y) = hd 0 (l1 ++ x :: l2)).
  { intros y Hy. apply (Permutation_in _ (Permutation_sym (turn_perm x l1 l2))) in Hy. split; [apply incl_mid, Hy|]. rewrite Forall_forall in F. apply F, Hy. }
  assert (Irt : In (hd 0 (l1 ++ x :: l2)) (x :: l2 ++ l1)) by (apply (Permutation_in _ (turn_perm x l1 l2)), hd_In; destruct l1; discriminate).
  assert (NT : NoDup (x :: l2 ++ l1)) by (apply (Permutation_NoDup (turn_perm x l1 l2)), (nodup_part _ _ _ (proj1 R))).
  set (rt := hd 0 (l1 ++ x :: l2)) in *. apply cyc_rot in C. change ((x :: l2) ++ l1) with (x :: l2 ++ l1) in C.
  destruct (cyc_next _ _ _ C) as (B1 & B2 & B3 & B4).
  assert (Hn : In (next (h x)) (x :: l2 ++ l1)) by (rewrite B1; destruct (l2 ++ l1); [left|right; left]; reflexivity).
  assert (Hp : In (prev (h x)) (x :: l2 ++ l1)) by (rewrite (proj1 (cyc_prev _ _ _ C)); apply last_In; discriminate).
  assert (Hx : In x (x :: l2 ++ l1)) by (left; reflexivity).
  rewrite (proj2 (In' _ Hn)), (proj2 (In' _ Hp)), (proj2 (In' _ Hx)).
  split; [apply In', Hn|]. split; [apply In', Hp|]. split; [apply In', Irt|].
  split; [rewrite B1; exact B2|]. split; [rewrite B3; exact B4|]. split; [reflexivity|]. split; [reflexivity|].
  destruct Irt as [E|Irt]; [exists 0; exact E|]. apply in_split in Irt as (u & v & E). exists (S (length u)). apply follow_chain.
  destruct C as (C & _). rewrite E in C. change (x :: u ++ rt :: v) with ((x :: u) ++ rt :: v) in C. apply chain_app in C; [|discriminate|discriminate].
  change (x :: u ++ [rt]) with ((x :: u) ++ [rt]). apply chain_app; [discriminate|discriminate|]. cbn [hd] in *. split; [apply C|]. split; [apply C|exact I].
Qed.

(** Initialised nodes are lists of their own. *)
Lemma init_fields h p y : next (init h p y) = (if y =? p then p else next (h y)) /\ prev (init h p y) = (if y =? p then p else prev (h y)) /\
  root (init h p y) = (if y =? p then p else root (h y)) /\ data (init h p y) = data (h y).
Proof. unfold init. rd. auto. Qed.
Lemma init_all_fields : forall nodes h y, 
  (In y nodes -> next (init_all h nodes y) = y /\ prev (init_all h nodes y) = y /\ root (init_all h nodes y) = y) /\
  (~ In y nodes -> next (init_all h nodes y) = next (h y) /\ prev (init_all h nodes y) = prev (h y) /\ root (init_all h nodes y) = root (h y)).
Proof.
  induction nodes as [|x nodes IH]; intros h y; [split; [intros []|auto]|]. unfold init_all. cbn [fold_left]. fold (init_all (init h x) nodes).
  destruct (IH (init h x) y) as (I1 & I2). destruct (init_fields h x y) as (F1 & F2 & F3 & _).
  destruct (in_dec Nat.eq_dec y nodes) as [Y|Y].
  - split; [intros _; exact (I1 Y)|]. intros Z. exfalso. apply Z. right. exact Y.
  - destruct (I2 Y) as (J1 & J2 & J3). rewrite J1, J2, J3, F1, F2, F3. split.
    + intros [E|Z]; [|contradiction]. subst. rewrite Nat.eqb_refl. auto.
    + intros Z. destruct (Nat.eqb_spec y x) as [->|]; [exfalso; apply Z; left; reflexivity|auto].
Qed.
Lemma concat_single (nodes : list nat) : concat (map (fun x => [x]) nodes) = nodes.
Proof. induction nodes as [|x nodes IH]; [reflexivity|]. cbn. f_equal. exact IH. Qed.
Theorem init_all_ok h nodes : NoDup nodes -> represents (init_all h nodes) (map (fun x => [x]) nodes).
Proof.
  intros N. split; [rewrite concat_single; exact N|]. apply Forall_forall. intros r Hr. apply in_map_iff in Hr as (x & <- & Hx).
  destruct (init_all_fields nodes h x) as (I1 & _). destruct (I1 Hx) as (J1 & J2 & J3).
  split; [discriminate|]. split; [exact I|]. split; [split; assumption|]. constructor; [exact J3|constructor].
Qed.
