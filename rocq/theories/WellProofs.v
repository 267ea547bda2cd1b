(** Proofs about wells. *)

From Coq Require Import ZArith List Bool Arith Lia Permutation.
From Verif Require Import CInt CUtil MemoryModel ListModel ListSpec ListProofs ListProofs2 ListProofs3 ListProofs4 ListProofs5 ListProofs6 WellModel WellSpec.
Import ListNotations.
Local Open Scope nat_scope.

(** * Lists used as queues *)

Lemma next_root h rt l rs : represents h ((rt :: l) :: rs) -> next (h rt) = hd rt l /\ prev (h rt) = last l rt /\ root (h rt) = rt.
Proof.
  intros (_ & R). apply Forall_inv in R. apply ring_cyc in R as (_ & C & F). apply cyc_next in C as (A & _ & B & _). apply Forall_inv in F. auto.
Qed.
Lemma nodup_first h r rs : represents h (r :: rs) -> NoDup r.
Proof. intros (N & _). cbn in N. exact (nodup_l _ _ N). Qed.
Lemma isempty_root h rt l rs : represents h ((rt :: l) :: rs) -> isempty h rt = match l with [] => true | _ => false end.
Proof.
  intros R. destruct (next_root h rt l rs R) as (A & _). unfold isempty. rewrite A. pose proof (nodup_first _ _ _ R) as N. destruct l as [|x l]; cbn [hd]; [apply Nat.eqb_refl|].
  apply Nat.eqb_neq. intros ->. apply NoDup_cons_iff in N as (N & _). apply N. left. reflexivity.
Qed.

Lemma deq fuel h rt x l rs : represents h ((rt :: x :: l) :: rs) -> length (rt :: x :: l) <= fuel ->
  exists h', remove fuel h x = Some h' /\ represents h' ([x] :: (rt :: l) :: rs) /\ keeps h h' (rt :: x :: l).
Proof. intros R L. exact (remove_core fuel h x [rt] l rs R ltac:(discriminate) L). Qed.

Lemma last_from : forall (l : list nat) a d, last (a :: l) d = last l a.
Proof. induction l as [|b l IH]; intros a d; [reflexivity|]. transitivity (last (b :: l) d); [reflexivity|]. rewrite (IH b d), (IH b a). reflexivity. Qed.
Lemma enq fuel h rt l x rs : represents h ((rt :: l) :: [x] :: rs) -> 2 + length l <= fuel ->
  exists h', insert fuel h (last l rt) x = Some h' /\ represents h' ((rt :: l ++ [x]) :: rs) /\ keeps h h' (rt :: l ++ [x]).
Proof.
  intros R L. assert (R2 : represents h [rt :: l; [x]]).
  { destruct R as (N & R). split; [|constructor; [exact (Forall_inv R)|constructor; [exact (Forall_inv (Forall_inv_tail R))|constructor]]]. cbn in *. idtac. change (x :: concat rs) with ([x] ++ concat rs) in N.
    rewrite app_comm_cons, app_assoc in N. exact (nodup_l _ _ N). }
  assert (P0 : last l rt = last (rt :: l) 0) by (symmetry; apply last_from).
  assert (IP : In (last l rt) (rt :: l)) by (rewrite P0; apply last_In; discriminate).
  destruct (insert_ok fuel h (last l rt) x [rt :: l; [x]] R2) as (h' & E & R' & P & K); [apply in_first; exact IP|apply in_rest; left; reflexivity|cbn; rewrite app_length; cbn; lia|].
  exists h'. split; [exact E|].
  assert (S : s_insert (last l rt) x [rt :: l; [x]] = [rt :: l ++ [x]]).
  { destruct (exists_last (l := rt :: l) ltac:(discriminate)) as (l' & a & EQ). rewrite P0, EQ, last_last.
    rewrite (place_rest h a x l' [] [[x]]); [|rewrite <- EQ; exact R2|cbn; auto]. cbn [detach map filter ListSpec.without]. unfold detach. cbn. rewrite Nat.eqb_refl. cbn.
    rewrite app_comm_cons, EQ, <- app_assoc. reflexivity. }
  rewrite S in R'. split; [|].
  - destruct R as (N & R). destruct R' as (N' & R'). split.
    + cbn in *. rewrite app_nil_r in N'. rewrite <- app_assoc. exact N.
    + constructor; [exact (Forall_inv R')|]. apply (rings_frame h); [|exact (Forall_inv_tail (Forall_inv_tail R))]. intros y Y. apply (proj2 K). 
      intros Y2. cbn in N. assert (D : ~ In y (rt :: l ++ [x])).
      { intros D. change (rt :: l ++ x :: concat rs) with ((rt :: l) ++ [x] ++ concat rs) in N. rewrite app_assoc in N. apply in_split in D as (d1 & d2 & D). change (rt :: l ++ [x]) with ((rt :: l) ++ [x]) in D. rewrite D, <- app_assoc in N.
        cbn in N. apply NoDup_remove_2 in N. apply N. rewrite !in_app_iff. auto. }
      apply D. cbn [concat app] in Y2. exact Y2.
  - refine (keeps_incl _ _ _ _ _ K). intros y Y. cbn in *. rewrite in_app_iff in *. cbn in *. tauto.
Qed.

Lemma datainit_fields h p v y : next (datainit h p v y) = (if y =? p then p else next (h y)) /\ prev (datainit h p v y) = (if y =? p then p else prev (h y)) /\
  root (datainit h p v y) = (if y =? p then p else root (h y)) /\ data (datainit h p v y) = if y =? p then v else data (h y).
Proof.
  unfold datainit, dataset, put. destruct (init_fields h p y) as (A & B & C & D). destruct (init_fields h p p) as (A' & B' & C' & D'). rewrite Nat.eqb_refl in A', B', C'.
  destruct (Nat.eqb_spec y p) as [E|]; [subst|]; cbn; auto.
Qed.
(** Initialising a node that is alone changes only its data. *)
Lemma datainit_single h x v rs : represents h ([x] :: rs) -> represents (datainit h x v) ([x] :: rs).
Proof.
  intros R. destruct (single_next h x rs R) as (A & B & C). apply (represents_ext h); [|exact R]. intros y. destruct (datainit_fields h x v y) as (D1 & D2 & D3 & _).
  rewrite D1, D2, D3. destruct (Nat.eqb_spec y x) as [EQ|]; [rewrite EQ in *|]; auto.
Qed.
(** A new node. *)
Lemma datainit_new h x v rs : represents h rs -> ~ In x (concat rs) -> represents (datainit h x v) ([x] :: rs).
Proof.
  intros (N & R) I. destruct (datainit_fields h x v x) as (D1 & D2 & D3 & _). rewrite Nat.eqb_refl in D1, D2, D3. split; [cbn; constructor; assumption|]. constructor.
  - split; [discriminate|]. split; [exact Logic.I|]. split; [cbn; split; assumption|]. constructor; [exact D3|constructor].
  - apply (rings_frame h); [|exact R]. intros y Y. destruct (datainit_fields h x v y) as (E1 & E2 & E3 & _). rewrite E1, E2, E3. destruct (Nat.eqb_spec y x) as [EQ|]; [rewrite EQ in Y; contradiction|auto].
Qed.

(** * The well *)

Definition winv (h : heap) (inside out : list Z) : Prop :=
  exists F U, represents h [WELL :: F; USED WELL :: U] /\ map (fun n => data (h n)) F = inside /\ length U = length out.

Lemma swap2 h (a b : list nat) rs : represents h (a :: b :: rs) -> represents h (b :: a :: rs).
Proof. apply represents_perm, perm_swap. Qed.

Lemma take_length p : forall l l', take p l = Some l' -> length l = S (length l').
Proof.
  induction l as [|x l IH]; cbn; intros l' E; [discriminate|]. destruct (x =? p)%Z; [injection E as <-; reflexivity|]. destruct (take p l) as [m|]; [|discriminate]. injection E as <-. cbn. rewrite (IH m eq_refl). reflexivity.
Qed.
Lemma take_perm p : forall l l', take p l = Some l' -> Permutation l (p :: l').
Proof.
  induction l as [|x l IH]; cbn; intros l' E; [discriminate|]. destruct (Z.eqb_spec x p) as [->|]; [injection E as <-; reflexivity|]. destruct (take p l) as [m|]; [|discriminate]. injection E as <-.
  rewrite (IH m eq_refl). apply perm_swap.
Qed.

Lemma well_step_ok fuel h inside out o inside' out' r : winv h inside out -> 2 + length inside + length out <= fuel ->
  r_step (inside, out) o = Some (inside', out', r) ->
  exists h', well_step fuel h o = Some (h', r) /\ winv h' inside' out' /\ length inside' + length out' = length inside + length out /\ well_fini h' WELL = well_fini h WELL.
Proof.
  intros (F & U & R & DF & LU) L E. destruct (next_root _ _ _ _ R) as (N1 & P1 & R1). pose proof (swap2 _ _ _ _ R) as RS. destruct (next_root _ _ _ _ RS) as (N2 & P2 & R2).
  assert (LF : length F = length inside) by (rewrite <- DF, map_length; reflexivity).
  assert (ND : NoDup ((WELL :: F) ++ USED WELL :: U)) by (destruct R as (N & _); cbn in *; rewrite app_nil_r in N; exact N).
  destruct o as [|p]; cbn [r_step fst snd] in E; cbn [well_step].
  - unfold well_alloc. rewrite R1. unfold FREE. rewrite (isempty_root _ _ _ _ R), N1. destruct F as [|x F]; cbn [negb hd].
    + cbn in DF. subst inside. injection E as <- <- <-. exists h. split; [reflexivity|]. split; [exists [], U; auto|]. auto.
    + cbn [map] in DF. subst inside. injection E as <- <- <-. cbn [length] in LF, L.
      destruct (deq fuel h WELL x F _ R) as (h1 & E1 & RE1 & K1); [cbn [length]; lia|]. rewrite E1. cbn [bind].
      assert (RE1' : represents h1 [USED WELL :: U; [x]; WELL :: F]) by (refine (represents_perm _ _ _ _ RE1); apply Permutation_sym; change [[x]; WELL :: F; USED WELL :: U] with ([[x]; WELL :: F] ++ [USED WELL :: U]); apply Permutation_cons_append).
      destruct (next_root _ _ _ _ RE1') as (_ & P3 & _). rewrite P3.
      destruct (enq fuel h1 (USED WELL) U x _ RE1') as (h2 & E2 & RE2 & K2); [lia|]. rewrite E2. cbn [bind].
      exists h2. split; [f_equal; f_equal; apply (proj1 K1)|]. split; [|split; [cbn [length]; lia|]].
      * exists F, (U ++ [x]). split; [apply swap2, RE2|]. split; [apply map_ext; intros y; rewrite (proj1 K2), (proj1 K1); reflexivity|]. rewrite app_length. cbn. lia.
      * unfold well_fini. rewrite !(proj1 K2), !(proj1 K1). reflexivity.
  - destruct (take p out) as [o'|] eqn:TK; [|discriminate]. injection E as <- <- <-. apply take_length in TK.
    unfold well_free. rewrite R1. rewrite (isempty_root _ _ _ _ RS), N2. destruct U as [|x U]; [cbn in LU; lia|]. cbn [negb hd]. cbn [length] in LU.
    destruct (deq fuel h (USED WELL) x U _ RS) as (h1 & E1 & RE1 & K1); [cbn [length]; lia|]. rewrite E1. cbn [bind].
    set (h2 := datainit h1 x p). assert (RE2 : represents h2 [[x]; USED WELL :: U; WELL :: F]) by (apply datainit_single, RE1).
    assert (RE2' : represents h2 [WELL :: F; [x]; USED WELL :: U]) by (refine (represents_perm _ _ _ _ RE2); apply Permutation_sym; change [[x]; USED WELL :: U; WELL :: F] with ([[x]; USED WELL :: U] ++ [WELL :: F]); apply Permutation_cons_append).
    destruct (next_root _ _ _ _ RE2') as (_ & P3 & _). unfold FREE. rewrite P3.
    destruct (enq fuel h2 WELL F x _ RE2') as (h3 & E3 & RE3 & K3); [lia|]. rewrite E3. cbn [bind]. exists h3. split; [reflexivity|].
    assert (XF : ~ In x (WELL :: F)). { intros X. apply in_split in X as (a & b & X). rewrite X in ND. rewrite <- app_assoc in ND. cbn in ND. apply NoDup_remove_2 in ND. apply ND. rewrite !in_app_iff. cbn. tauto. }
    assert (XU : x <> USED WELL). { intros ->. apply nodup_r in ND. apply NoDup_cons_iff in ND as (ND & _). apply ND. left. reflexivity. }
    assert (DT : forall y, data (h3 y) = if y =? x then p else data (h y)).
    { intros y. rewrite (proj1 K3). unfold h2. destruct (datainit_fields h1 x p y) as (_ & _ & _ & D). rewrite D, (proj1 K1). reflexivity. }
    split; [|split].
    + exists (F ++ [x]), U. split; [exact RE3|]. split; [|lia]. rewrite map_app. cbn [map]. rewrite DT, Nat.eqb_refl. f_equal. rewrite <- DF. apply map_ext_in. intros y Y. rewrite DT.
      destruct (Nat.eqb_spec y x) as [->|]; [exfalso; apply XF; right; exact Y|reflexivity].
    + rewrite app_length. cbn [length]. lia.
    + unfold well_fini, FREE. rewrite !DT. destruct (Nat.eqb_spec (USED WELL) x); [congruence|]. destruct (Nat.eqb_spec WELL x) as [<-|]; [exfalso; apply XF; left; reflexivity|reflexivity].
Qed.

Lemma well_run_ok fuel : forall ops h inside out inside' out' rs, winv h inside out -> 2 + length inside + length out <= fuel ->
  r_run (inside, out) ops = Some (inside', out', rs) ->
  exists h', well_run fuel h ops = Some (h', rs) /\ winv h' inside' out' /\ well_fini h' WELL = well_fini h WELL.
Proof.
  induction ops as [|o ops IH]; intros h inside out inside' out' rs V L E; cbn [r_run] in E.
  - injection E as <- <- <-. exists h. auto.
  - destruct (r_step (inside, out) o) as [((i1, o1), r)|] eqn:ES; [|discriminate]. destruct (r_run (i1, o1) ops) as [((i2, o2), rs2)|] eqn:ER; [|discriminate]. injection E as <- <- <-.
    destruct (well_step_ok fuel h _ _ o _ _ _ V L ES) as (h1 & E1 & V1 & L1 & F1). destruct (IH h1 i1 o1 i2 o2 rs2 V1 ltac:(lia) ER) as (h2 & E2 & V2 & F2).
    exists h2. cbn [well_run]. rewrite E1. cbn [bind]. rewrite E2. cbn [bind]. split; [reflexivity|]. split; [exact V2|congruence].
Qed.

Lemma winv_behaves fuel h inside out : winv h inside out -> 2 + length inside + length out <= fuel -> behaves fuel h inside out.
Proof.
  intros V L ops i o rs E. destruct (well_run_ok fuel ops h _ _ _ _ _ V L E) as (h' & E' & (F & U & R & DF & LU) & FI). exists h'. split; [exact E'|].
  pose proof (swap2 _ _ _ _ R) as RS. split; [|split; [|split; [exact FI|]]].
  - unfold well_isempty, FREE. rewrite (isempty_root _ _ _ _ R). subst i. destruct F; reflexivity.
  - unfold well_isfull. rewrite (isempty_root _ _ _ _ RS). destruct U, o; cbn in LU; try lia; reflexivity.
  - intros -> p. destruct U; [|cbn in LU; lia]. destruct (next_root _ _ _ _ R) as (_ & _ & R1). unfold well_free. rewrite R1, (isempty_root _ _ _ _ RS). reflexivity.
Qed.

(** * The reference *)

Lemma r_step_perm inside out o inside' out' r : r_step (inside, out) o = Some (inside', out', r) -> Permutation (inside ++ out) (inside' ++ out').
Proof.
  destruct o as [|p]; cbn.
  - destruct inside as [|x i]; intros E; injection E as <- <- <-; [reflexivity|]. cbn. apply Permutation_middle.
  - destruct (take p out) as [o'|] eqn:T; [|discriminate]. intros E. injection E as <- <- <-. apply take_perm in T. rewrite T, <- app_assoc. reflexivity.
Qed.
Lemma r_run_perm : forall ops inside out inside' out' rs, r_run (inside, out) ops = Some (inside', out', rs) -> Permutation (inside ++ out) (inside' ++ out').
Proof.
  induction ops as [|o ops IH]; intros inside out inside' out' rs E; cbn [r_run] in E; [injection E as <- <- <-; reflexivity|].
  destruct (r_step (inside, out) o) as [((i1, o1), r)|] eqn:ES; [|discriminate]. destruct (r_run (i1, o1) ops) as [((i2, o2), rs2)|] eqn:ER; [|discriminate]. injection E as <- <- <-.
  eapply perm_trans; [eapply r_step_perm, ES|eapply IH, ER].
Qed.
