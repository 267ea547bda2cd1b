(** Properties C16 and C17. *)

From Coq Require Import ZArith List Bool Lia Sorting.Sorted.
From Verif Require Import CInt CUtil TreeModel TreeSpec TreeProofs TreeProofs2 TreeProofs3 TreeProofs4 TreeProofs5 TreeProofs6 TreeProofs7 TreeProofs8 TreeProofs9.
Import ListNotations.
Local Open Scope Z_scope.

(** * C16 *)

Lemma permitted_history cmp valid ps h s : history cmp permitted (start valid ps) h s -> exists T F, inv s T /\ deep T F.
Proof. apply (history_inv cmp permitted valid ps h s). auto. Qed.

(** After any history of permitted calls, with any comparator whatever, a permitted
    call is defined: it needs no more iterations than twice the logarithm of the size
    of a tree, and two; and what it does does not depend on how many more it may take. *)
Theorem C16_defined : forall cmp valid ps h s o fuel,
  history cmp permitted (start valid ps) h s -> permitted s o -> suffices s fuel ->
  exists s' z, forall more, (fuel <= more)%nat -> step cmp more s o = Some (s', z).
Proof.
  intros cmp valid ps h s o fuel H P SF. destruct (permitted_history _ _ _ _ _ H) as (T & F & I & _).
  destruct (step_ok cmp fuel s T o I (suffices_deep s T fuel I SF) P) as (s' & z & _ & E1 & _). exists s', z.
  intros more M. exact (step_mono_ok cmp fuel more s o _ M E1).
Qed.
Print Assumptions C16_defined.

Lemma size_depth t : (length (inorder t) + 1 <= 2 ^ depth t)%nat.
Proof.
  induction t as [|c l IHl x r IHr]; [cbn; lia|]. cbn [inorder depth]. rewrite app_length. cbn [length].
  rewrite Nat.pow_succ_r'. pose proof (Nat.pow_le_mono_r 2 (depth l) (Nat.max (depth l) (depth r)) ltac:(lia) ltac:(lia)).
  pose proof (Nat.pow_le_mono_r 2 (depth r) (Nat.max (depth l) (depth r)) ltac:(lia) ltac:(lia)). lia.
Qed.
(** There is always such a number of iterations. *)
Theorem C16_suffices : forall cmp valid ps h s,
  history cmp permitted (start valid ps) h s -> exists fuel, suffices s fuel.
Proof.
  intros cmp valid ps h s H. destruct (permitted_history _ _ _ _ _ H) as (T & F & I & D). exists (2 * F + 2)%nat.
  intros r t R HT. rewrite (trees_unique s T r t I R HT). specialize (D r R).
  pose proof (Nat.log2_le_mono _ _ (size_depth (T r))) as L. rewrite Nat.log2_pow2 in L by lia. lia.
Qed.
Print Assumptions C16_suffices.

(** After any history of permitted calls, with any comparator whatever, each root has
    exactly one tree, which is a red-black tree with a black root, and so has a depth
    of at most twice the logarithm of one more than its size. *)
Theorem C16_balance : forall cmp valid ps h s r,
  history cmp permitted (start valid ps) h s -> r <> 0 ->
  exists t n, holds s r t /\ redblack t n /\ isb t = true /\ (depth t <= 2 * Nat.log2 (length (inorder t) + 1))%nat /\
    forall t', holds s r t' -> t' = t.
Proof.
  intros cmp valid ps h s r H R. destruct (permitted_history _ _ _ _ _ H) as (T & F & I & D).
  pose proof (I_rb s T I r R) as B. pose proof (balanced_depth _ B) as BD. destruct B as ((n & RB) & B). exists (T r), n. split; [apply I, R|]. split; [exact RB|].
  split; [exact B|]. split; [exact BD|]. intros t' H'. exact (trees_unique s T r t' I R H').
Qed.
Print Assumptions C16_balance.

(** The audit of the library then reports no error. *)
Theorem C16_audit : forall cmp valid ps h s r fuel,
  history cmp permitted (start valid ps) h s -> r <> 0 -> suffices s fuel -> step cmp fuel s (Audit r) = Some (s, 0).
Proof.
  intros cmp valid ps h s r fuel H R SF. destruct (permitted_history _ _ _ _ _ H) as (T & F & I & _).
  pose proof (suffices_deep s T fuel I SF r R). cbn [step].
  rewrite (audit_at fuel s r (T r) (inv_whole s T r I R) (I_rb s T I r R)) by lia. reflexivity.
Qed.
Print Assumptions C16_audit.

(** A call changes at most one of the trees, and no node is ever in two. *)
Theorem C16_separate : forall cmp valid ps h s o fuel s' z,
  history cmp permitted (start valid ps) h s -> permitted s o -> step cmp fuel s o = Some (s', z) ->
  (exists r0, forall r t, r <> 0 -> r <> r0 -> holds s r t -> holds s' r t) /\
  (forall r1 t1 r2 t2 p, r1 <> 0 -> r2 <> 0 -> holds s r1 t1 -> holds s r2 t2 -> In p (inorder t1) -> In p (inorder t2) -> r1 = r2).
Proof.
  intros cmp valid ps h s o fuel s' z H P E1. destruct (permitted_history _ _ _ _ _ H) as (T & F & I & D). split.
  - assert (D' : deep T (Nat.max fuel F)) by (intros r R; specialize (D r R); lia).
    destruct (step_ok cmp (Nat.max fuel F) s T o I D' P) as (s2 & z2 & T2 & E2 & I2 & M).
    rewrite (step_mono_ok cmp fuel (Nat.max fuel F) s o _ ltac:(lia) E1) in E2. injection E2 as <- <-.
    destruct M as [->|(r0 & t0 & ->)].
    + exists 0. intros r t R _ HT. rewrite (trees_unique s T r t I R HT). apply I2, R.
    + exists r0. intros r t R R0 HT. rewrite (trees_unique s T r t I R HT), <- (upd_other T r0 t0 r R0). apply I2, R.
  - intros r1 t1 r2 t2 p R1 R2 H1 H2 P1 P2. rewrite (trees_unique s T r1 t1 I R1 H1) in P1. rewrite (trees_unique s T r2 t2 I R2 H2) in P2.
    apply (owner_in s T r1 p I R1) in P1. apply (owner_in s T r2 p I R2) in P2. congruence.
Qed.
Print Assumptions C16_separate.

(** A state to which the theorems apply: seven nodes in ascending order, one removed. *)
Definition CMP (a b : payload) : Z := a - b.
Definition S0 : st := start (fun p => p <? 20) (fun p => 10 * p).
Definition result_of (x : option (st * Z)) : option Z := match x with Some (_, r) => Some r | None => None end.
Definition state_of (x : option (st * Z)) : st := match x with Some (s, _) => s | None => S0 end.
Lemma split_step x r : result_of x = Some r -> x = Some (state_of x, r).
Proof. destruct x as [(s & z)|]; cbn; congruence. Qed.
Ltac call H o :=
  match type of H with history ?cmp ?allow ?s0 ?h ?s =>
    let x := eval vm_compute in (result_of (step cmp 20 s o)) in
    match x with Some ?r =>
      let Y := fresh in
      assert (Y : history cmp allow s0 (h ++ [(o, r)]) (state_of (step cmp 20 s o)));
      [apply (H_call cmp allow s0 h s o 20 _ r H); [|apply split_step; vm_compute; reflexivity]|
       clear H; rename Y into H; cbn [app] in H]
    end
  end.
Lemma isnode_eq s p n : nodes s p = Some n -> isnode s p.
Proof. unfold isnode. congruence. Qed.
Ltac anode := eapply isnode_eq; vm_compute; reflexivity.
Ltac keyed_tac := split; [cbn [permitted]; try (split; [discriminate|anode]); try discriminate; try anode|exact I].

Definition TX : tree := N BLACK (N BLACK E 1 E) 3 (N RED (N BLACK E 4 (N RED E 5 E)) 6 (N BLACK E 7 E)).
Ltac lookup := eexists; vm_compute; reflexivity.
Example C16_applies : exists h s, history CMP permitted S0 h s /\ holds s 100 TX /\ permitted s (Remove 5) /\ suffices s 6.
Proof.
  pose proof (H_start CMP permitted S0) as H.
  call H (Insert 100 1 false); [split; [discriminate|anode]|]. call H (Insert 100 2 false); [split; [discriminate|anode]|].
  call H (Insert 100 3 false); [split; [discriminate|anode]|]. call H (Insert 100 4 false); [split; [discriminate|anode]|].
  call H (Insert 100 5 false); [split; [discriminate|anode]|]. call H (Insert 100 6 false); [split; [discriminate|anode]|].
  call H (Insert 100 7 false); [split; [discriminate|anode]|]. call H (Remove 2); [right; anode|].
  match type of H with history _ _ _ ?h ?s => set (sx := s) in *; set (hx := h) in * end. exists hx, sx. split; [exact H|].
  assert (HT : holds sx 100 TX).
  { split; [vm_compute; reflexivity|]. split; [|cbn; repeat constructor; cbn; lia]. cbn [TX tree_at].
    split; [discriminate|]. split; [lookup|]. split.
    - split; [discriminate|]. split; [lookup|]. split; exact I.
    - split; [discriminate|]. split; [lookup|]. split.
      + split; [discriminate|]. split; [lookup|]. split; [exact I|]. split; [discriminate|]. split; [lookup|]. split; exact I.
      + split; [discriminate|]. split; [lookup|]. split; exact I. }
  split; [exact HT|]. split; [right; anode|]. intros r t R Q. destruct (Z.eq_dec r 100) as [->|NE].
  - destruct (C16_balance CMP _ _ hx sx 100 H ltac:(discriminate)) as (t0 & n & _ & _ & _ & _ & U). rewrite (U t Q), <- (U TX HT). vm_compute. lia.
  - destruct Q as (Q & Q2 & _). destruct t as [|c l x rt]; [cbn; lia|]. destruct Q2 as (X & _). exfalso. apply X. cbn [top] in Q. rewrite <- Q.
    clear - NE. vm_compute. repeat (destruct r as [|r|r] || destruct r as [r|r|]; try reflexivity; try congruence).
Qed.

(** Not every tree that passes the audit is balanced: this one is the chain of two black
    nodes. The audit counts the black nodes only down to the nodes without children. *)
Theorem C16_audit_complete_refuted : exists s r t,
  holds s r t /\ (forall n, ~ redblack t n) /\ forall cmp fuel, (3 <= fuel)%nat -> step cmp fuel s (Audit r) = Some (s, 0).
Proof.
  exists (St (fun p => if p =? 1 then Some (Node 0 0 2 100 BLACK false 0) else if p =? 2 then Some (Node 1 0 0 100 BLACK false 0) else None) (fun _ => 1)), 100,
    (N BLACK E 1 (N BLACK E 2 E)). split; [|split].
  - split; [reflexivity|]. split; [|cbn; repeat constructor; cbn; lia]. cbn [tree_at top].
    split; [discriminate|]. split; [eexists; reflexivity|]. split; [exact I|]. split; [discriminate|]. split; [eexists; reflexivity|]. split; exact I.
  - intros n Q. inversion Q as [| |? ? ? ? Q1 Q2]; subst. inversion Q1; subst. inversion Q2.
  - intros cmp fuel F. do 3 (destruct fuel as [|fuel]; [lia|]). reflexivity.
Qed.
Print Assumptions C16_audit_complete_refuted.

(** The position of an insertion by hand must be in a tree: beside a node that is in
    none the insertion is not refused but undefined. *)
Theorem C16_orphan_position_refuted : forall cmp fuel,
  isnode S0 1 /\ isnode S0 2 /\ step cmp fuel S0 (InsertLeft 2 1 100) = None /\ step cmp fuel S0 (InsertRight 2 1 100) = None.
Proof.
  intros cmp fuel. split; [unfold isnode; cbn; discriminate|]. split; [unfold isnode; cbn; discriminate|].
  destruct fuel as [|[|fuel]]; split; reflexivity.
Qed.
Print Assumptions C16_orphan_position_refuted.

(** * C17 *)

(** After any history of calls of a tree or store that is ordered by a comparator, the
    results of all the calls are those of the reference (a list in ascending order), so
    are the contents of each tree, and so is the result of the next call. *)
Theorem C17_refines : forall cmp valid ps h s,
  total_order cmp -> history cmp (keyed cmp) (start valid ps) h s ->
  let a := fst (ref_run cmp (ref0 ps) (map fst h)) in
  map snd h = snd (ref_run cmp (ref0 ps) (map fst h)) /\
  (forall r, r <> 0 -> exists t, holds s r t /\ inorder t = content a r) /\
  (forall o fuel, keyed cmp s o -> suffices s fuel -> exists s', step cmp fuel s o = Some (s', snd (ref_step cmp a o))).
Proof.
  intros cmp valid ps h s TO H. destruct (history_all cmp valid ps h s TO H) as (T & F & a & D & RL & EA & RS & OW & PY).
  cbv zeta. rewrite <- EA. split; [exact RS|]. split.
  - intros r R. exists (T r). split; [apply RL, R|]. symmetry. apply RL, R.
  - intros o fuel K SF. destruct (keyed_step cmp fuel s T a o RL TO (suffices_deep s T fuel (R_inv _ _ _ _ RL) SF) K) as (s' & T' & E1 & _). eauto.
Qed.
Print Assumptions C17_refines.

(** After any such history, a tree has exactly the nodes that were put in and not taken
    out or replaced since, with the payloads stored last, in strictly ascending order:
    so no two with equal keys. *)
Theorem C17_contents : forall cmp valid ps h s r,
  total_order cmp -> history cmp (keyed cmp) (start valid ps) h s -> r <> 0 ->
  exists t, holds s r t /\ (forall p, In p (inorder t) <-> placed h p = r) /\ ascending cmp s (inorder t) /\
    (forall p, isnode s p -> payof s p = stored ps h p) /\
    (forall p q, placed h p = r -> placed h q = r -> cmp (payof s p) (payof s q) = 0 -> p = q).
Proof.
  intros cmp valid ps h s r TO H R. destruct (history_all cmp valid ps h s TO H) as (T & F & a & D & RL & EA & RS & OW & PY).
  pose proof (R_inv _ _ _ _ RL) as I. exists (T r). split; [apply I, R|].
  assert (IFF : forall p, In p (inorder (T r)) <-> placed h p = r).
  { intros p. rewrite <- OW, (R_owner _ _ _ _ RL). symmetry. exact (owner_in s T r p I R). }
  split; [exact IFF|]. split; [apply RL, R|]. split; [intros p Q; rewrite <- PY; symmetry; apply RL, Q|].
  intros p q P Q EQ. apply IFF in P, Q. pose proof (R_sorted _ _ _ _ RL r R) as AS. unfold ascending in AS.
  apply in_split in P as (A & B & EA2). rewrite EA2 in AS, Q. apply sorted_app in AS as (_ & S2 & S3). inversion S2 as [|? ? _ F2]. rewrite Forall_forall in F2.
  assert (EQ' : cmp (payof s q) (payof s p) = 0).
  { destruct (Z.lt_trichotomy (cmp (payof s q) (payof s p)) 0) as [L|[L|L]]; [|exact L|].
    - apply (proj1 TO) in L. lia.
    - assert (L2 : cmp (payof s q) (payof s p) > 0) by lia. apply (proj1 TO) in L2. lia. }
  apply in_app_or in Q as [Q|[Q|Q]]; [|exact Q|].
  - specialize (S3 q p Q (or_introl eq_refl)). lia.
  - specialize (F2 q Q). lia.
Qed.
Print Assumptions C17_contents.

(** Finding a key yields the node in the tree that has an equal key, NULL if none has. *)
Theorem C17_find : forall cmp valid ps h s r x fuel,
  total_order cmp -> history cmp (keyed cmp) (start valid ps) h s -> r <> 0 -> isnode s x -> suffices s fuel ->
  exists p, step cmp fuel s (Find r x) = Some (s, p) /\
    ((p <> 0 /\ placed h p = r /\ cmp (payof s p) (payof s x) = 0) \/
     (p = 0 /\ forall q, placed h q = r -> cmp (payof s q) (payof s x) <> 0)).
Proof.
  intros cmp valid ps h s r x fuel TO H R X SF. destruct (history_all cmp valid ps h s TO H) as (T & F & a & D & RL & EA & RS & OW & PY).
  pose proof (R_inv _ _ _ _ RL) as I.
  destruct (keyed_step cmp fuel s T a (Find r x) RL TO (suffices_deep s T fuel I SF)) as (s' & T' & E1 & _); [split; [split; assumption|exact Logic.I]|].
  assert (s' = s). { cbn [step] in E1. destruct (find _ _ _ _ _); [|discriminate]. cbn [bind] in E1. congruence. } subst s'.
  eexists. split; [exact E1|]. cbn [ref_step fst snd].
  assert (IFF : forall p, In p (content a r) <-> placed h p = r).
  { intros p. rewrite <- OW, (R_owner _ _ _ _ RL), (R_content _ _ _ _ RL r R). symmetry. exact (owner_in s T r p I R). }
  assert (PAY : forall p, In p (content a r) -> cmp (pays a p) (pays a x) = cmp (payof s p) (payof s x)).
  { intros p P. rewrite !(R_pays _ _ _ _ RL); [reflexivity|exact X|]. rewrite (R_content _ _ _ _ RL r R) in P. exact (in_isnode s T r p I R P). }
  destruct (List.find _ _) as [q|] eqn:FD.
  - left. destruct (found_node _ _ _ _ _ _ _ RL R FD) as (Q1 & Q2 & Q3). split; [exact Q3|]. split; [apply IFF, Q1|]. rewrite <- PAY by exact Q1. apply Z.eqb_eq, Q2.
  - right. split; [reflexivity|]. intros q Q. apply IFF in Q. rewrite <- PAY by exact Q. apply Z.eqb_neq. exact (find_none _ _ FD q Q).
Qed.
Print Assumptions C17_find.

(** Inserting a node that is in no tree: it is put in if no node there has an equal key,
    and is the result. If one has, then without replacement nothing changes and the
    result is NULL; with replacement the new node takes its place, and it is the result. *)
Theorem C17_insert : forall cmp valid ps h s r x rep fuel,
  total_order cmp -> history cmp (keyed cmp) (start valid ps) h s -> r <> 0 -> isnode s x -> placed h x = 0 -> suffices s fuel ->
  exists s' z t t', step cmp fuel s (Insert r x rep) = Some (s', z) /\ holds s r t /\ holds s' r t' /\
    (((forall q, placed h q = r -> cmp (payof s q) (payof s x) <> 0) /\ z = x /\
      exists A B, inorder t = A ++ B /\ inorder t' = A ++ x :: B) \/
     (exists q A B, placed h q = r /\ cmp (payof s q) (payof s x) = 0 /\ inorder t = A ++ q :: B /\
        if rep then z = q /\ inorder t' = A ++ x :: B else z = 0 /\ s' = s)).
Proof.
  intros cmp valid ps h s r x rep fuel TO H R X PX SF. destruct (history_all cmp valid ps h s TO H) as (T & F & a & D & RL & EA & RS & OW & PY).
  pose proof (R_inv _ _ _ _ RL) as I.
  destruct (keyed_step cmp fuel s T a (Insert r x rep) RL TO (suffices_deep s T fuel I SF)) as (s' & T' & E1 & RL' & _); [split; [split; assumption|exact Logic.I]|].
  pose proof (R_inv _ _ _ _ RL') as I'. exists s', (snd (ref_step cmp a (Insert r x rep))), (T r), (T' r).
  split; [exact E1|]. split; [apply I, R|]. split; [apply I', R|].
  pose proof (R_content _ _ _ _ RL' r R) as CT. revert CT E1. clear RL'. cbn [ref_step].
  assert (IFF : forall p, In p (content a r) <-> placed h p = r).
  { intros p. rewrite <- OW, (R_owner _ _ _ _ RL), (R_content _ _ _ _ RL r R). symmetry. exact (owner_in s T r p I R). }
  assert (PAY : forall p, In p (content a r) -> cmp (pays a p) (pays a x) = cmp (payof s p) (payof s x)).
  { intros p P. rewrite !(R_pays _ _ _ _ RL); [reflexivity|exact X|]. rewrite (R_content _ _ _ _ RL r R) in P. exact (in_isnode s T r p I R P). }
  rewrite OW, PX. cbn [Z.eqb]. destruct (List.find _ _) as [q|] eqn:FD.
  - destruct (found_node _ _ _ _ _ _ _ RL R FD) as (Q1 & Q2 & Q3). intros CT E1. right.
    pose proof Q1 as Q4. rewrite (R_content _ _ _ _ RL r R) in Q4. apply in_split in Q4 as (A & B & AB). exists q, A, B.
    split; [apply IFF, Q1|]. split; [rewrite <- PAY by exact Q1; apply Z.eqb_eq, Q2|]. split; [exact AB|]. destruct rep; cbn [andb fst snd content] in *.
    + split; [reflexivity|]. rewrite <- CT, upd_same, (R_content _ _ _ _ RL r R), AB.
      pose proof (inv_nodup s T r I R) as ND. rewrite AB in ND. apply nodup_mid in ND as (ND1 & ND2). apply subst_at; assumption.
    + split; [reflexivity|]. cbn [step] in E1. unfold search_insert_or_replace in E1. rewrite (load_eq _ _ R) in E1. cbn [bind] in E1.
      destruct (search _ _ _ _ _ _) as [(c & rc)|]; [|discriminate]. cbn [bind] in E1.
      unfold isnode in X. destruct (nodes s x) as [nx|] eqn:VX; [|congruence].
      assert (RX : root nx = 0). { rewrite <- OW, (R_owner _ _ _ _ RL) in PX. unfold ownerof in PX. rewrite VX in PX. exact PX. }
      assert (X0 : x <> 0) by (intros ->; rewrite (I_null s T I) in VX; discriminate).
      unfold insert_root, insert_right, insert_left, insert_left_or_root, insert_right_or_root in E1.
      repeat match type of E1 with
      | Some _ = Some _ => injection E1 as E1; congruence
      | bind ?m _ = _ => let Q := fresh in destruct m as [?|] eqn:Q; [|discriminate E1]; cbn [bind] in E1
      | (if ?b then _ else _) = _ => let Q := fresh in destruct b eqn:Q
      | (let* _ := ?m in _) = _ => let Q := fresh in destruct m as [?|] eqn:Q; [|discriminate E1]; cbn [bind] in E1
      end; try (injection E1 as E1 E2; congruence).
  - intros CT E1. left. split; [intros q Q; apply IFF in Q; rewrite <- PAY by exact Q; apply Z.eqb_neq; exact (find_none _ _ FD q Q)|].
    split; [reflexivity|]. cbn [fst content] in CT. rewrite upd_same in CT.
    eexists _, _. split; [|symmetry; exact CT]. rewrite <- (R_content _ _ _ _ RL r R).
    pose proof (R_sorted _ _ _ _ RL r R) as AS. rewrite <- (R_content _ _ _ _ RL r R) in AS.
    assert (NX : forall q, In q (content a r) -> cmp (pays a q) (pays a x) <> 0) by (intros q Q; apply Z.eqb_neq; exact (find_none _ _ FD q Q)).
    clear - AS NX PAY TO. revert AS NX PAY. generalize (content a r). intros L AS. unfold ascending in AS.
    induction AS as [|y L AS IH FA]; intros NX PAY; [reflexivity|]. cbn [filter]. rewrite Forall_forall in FA.
    pose proof (NX y (or_introl eq_refl)) as NY. destruct (Z.ltb_spec (cmp (pays a y) (pays a x)) 0).
    + destruct (Z.ltb_spec 0 (cmp (pays a y) (pays a x))); [lia|]. cbn [app]. f_equal. apply IH; [intros q Q; apply NX; right; exact Q|intros q Q; apply PAY; right; exact Q].
    + destruct (Z.ltb_spec 0 (cmp (pays a y) (pays a x))); [|lia].
      assert (GT : forall q, In q L -> 0 < cmp (pays a q) (pays a x)).
      { intros q Q. rewrite PAY by (right; exact Q). rewrite PAY in * by (left; reflexivity). specialize (FA q Q).
        apply Z.gt_lt. apply (proj1 TO). apply (order_le_lt cmp _ (payof s y)); [exact TO| |exact FA].
        destruct (Z_le_gt_dec (cmp (payof s x) (payof s y)) 0) as [|G]; [assumption|]. apply (proj1 TO) in G. lia. }
      rewrite filter_no by (intros q Q; apply Z.ltb_ge; specialize (GT q Q); lia).
      rewrite filter_all by (intros q Q; apply Z.ltb_lt; apply GT; exact Q). reflexivity.
Qed.
Print Assumptions C17_insert.

(** Removing a node that is in a tree takes it out and nothing else. *)
Theorem C17_remove : forall cmp valid ps h s r x fuel,
  total_order cmp -> history cmp (keyed cmp) (start valid ps) h s -> r <> 0 -> placed h x = r -> suffices s fuel ->
  exists s' t t' A B, step cmp fuel s (Remove x) = Some (s', x) /\ holds s r t /\ holds s' r t' /\
    inorder t = A ++ x :: B /\ inorder t' = A ++ B.
Proof.
  intros cmp valid ps h s r x fuel TO H R PX SF. destruct (history_all cmp valid ps h s TO H) as (T & F & a & D & RL & EA & RS & OW & PY).
  pose proof (R_inv _ _ _ _ RL) as I. assert (IX : In x (inorder (T r))) by (apply (owner_in s T r x I R); rewrite <- (R_owner _ _ _ _ RL), OW; exact PX).
  pose proof (in_isnode s T r x I R IX) as NX. assert (X0 : x <> 0) by (intros ->; unfold isnode in NX; rewrite (I_null s T I) in NX; congruence).
  destruct (keyed_step cmp fuel s T a (Remove x) RL TO (suffices_deep s T fuel I SF)) as (s' & T' & E1 & RL' & _); [split; [right; exact NX|exact Logic.I]|].
  pose proof (R_content _ _ _ _ RL' r R) as CT. cbn [ref_step] in *. rewrite OW, PX in *. destruct (Z.eqb_spec x 0); [contradiction|]. destruct (Z.eqb_spec r 0); [contradiction|].
  cbn [orb fst snd content] in *. rewrite upd_same in CT.
  apply in_split in IX as (A & B & AB). exists s', (T r), (T' r), A, B. split; [exact E1|]. split; [apply I, R|]. split; [apply RL', R|]. split; [exact AB|].
  rewrite <- CT, (R_content _ _ _ _ RL r R), AB. pose proof (inv_nodup s T r I R) as ND. rewrite AB in ND. apply nodup_mid in ND as (ND1 & ND2). apply without_at; assumption.
Qed.
Print Assumptions C17_remove.

(** Stepping from the first node with next goes through the nodes of the tree, once
    each, in ascending order, and stepping from the last with prev goes through them in
    descending order. (That the list has exactly those nodes, ascending, is C17_contents.) *)
Theorem C17_order : forall cmp valid ps h s r fuel,
  total_order cmp -> history cmp (keyed cmp) (start valid ps) h s -> r <> 0 -> suffices s fuel ->
  exists t, holds s r t /\ NoDup (inorder t) /\ ~ In 0 (inorder t) /\
    step cmp fuel s (First r) = Some (s, hd 0 (inorder t)) /\ step cmp fuel s (Last r) = Some (s, List.last (inorder t) 0) /\
    forall A p B, inorder t = A ++ p :: B ->
      step cmp fuel s (Next p) = Some (s, hd 0 B) /\ step cmp fuel s (Prev p) = Some (s, List.last A 0).
Proof.
  intros cmp valid ps h s r fuel TO H R SF. destruct (history_all cmp valid ps h s TO H) as (T & F & a & D0 & RL & _).
  pose proof (R_inv _ _ _ _ RL) as I. pose proof (suffices_deep s T fuel I SF) as D. exists (T r). split; [apply I, R|]. pose proof (inv_nodup s T r I R) as ND.
  split; [exact ND|]. split; [intros Q; destruct (inv_in s T r 0 I R Q) as (n & N & _); rewrite (I_null s T I) in N; discriminate|].
  cbn [step]. specialize (D r R). rewrite (first_at fuel s r (T r) (inv_whole s T r I R)) by lia. rewrite (last_at fuel s r (T r) (inv_whole s T r I R)) by lia.
  split; [reflexivity|]. split; [reflexivity|]. intros A p B AB.
  assert (IP : In p (inorder (T r))) by (rewrite AB; apply in_mid). destruct (locate _ _ IP) as (k & c & l & rt & TR).
  pose proof (inv_whole s T r I R) as W. rewrite TR in W, D. rewrite (next_at fuel s r k c l p rt R W) by lia. rewrite (prev_at fuel s r k c l p rt R W) by lia. cbn [bind].
  assert (IT : inorder (T r) = (pre k ++ inorder l) ++ p :: inorder rt ++ post k).
  { rewrite TR, inorder_plug. cbn. rewrite <- !app_assoc. reflexivity. }
  pose proof ND as ND2. rewrite AB in ND. rewrite IT in ND2. rewrite AB in IT. apply nodup_mid in ND as (ND1 & _). apply nodup_mid in ND2 as (ND3 & _).
  destruct (split_unique p A _ B _ ND1 ND3 IT) as (-> & ->). auto.
Qed.
Print Assumptions C17_order.

(** A history to which these apply: an insertion refused, one that replaces, a removal,
    a node given another payload and put in again. *)
Example C17_applies : total_order CMP /\ exists h s, history CMP (keyed CMP) S0 h s /\
  map snd h = [3; 1; 5; 0; 0; 5; 1; 0; 1; 3; 9; 9] /\ map (placed h) [1; 3; 5; 9] = [100; 100; 0; 100] /\
  suffices s 20.
Proof.
  split. { split; [intros; unfold CMP; lia|intros a b c; unfold CMP; lia]. }
  pose proof (H_start CMP (keyed CMP) S0) as H.
  call H (Insert 100 3 false); [keyed_tac|]. call H (Insert 100 1 false); [keyed_tac|]. call H (Insert 100 5 false); [keyed_tac|].
  call H (Store 9 50); [split; [eexists; split; [vm_compute; reflexivity|reflexivity]|exact I]|].
  call H (Insert 100 9 false); [keyed_tac|]. call H (Insert 100 9 true); [keyed_tac|].
  call H (Remove 1); [split; [right; anode|exact I]|]. call H (Store 1 70); [split; [eexists; split; [vm_compute; reflexivity|reflexivity]|exact I]|].
  call H (Insert 100 1 false); [keyed_tac|]. call H (First 100); [split; [discriminate|exact I]|]. call H (Next 3); [split; [anode|exact I]|].
  call H (Find 100 5); [keyed_tac|].
  match type of H with history _ _ _ ?h ?s => set (sx := s) in *; set (hx := h) in * end. exists hx, sx. split; [exact H|].
  split; [reflexivity|]. split; [vm_compute; reflexivity|].
  assert (TO : total_order CMP) by (split; [intros; unfold CMP; lia|intros a b c; unfold CMP; lia]).
  intros r t R Q. destruct (C17_contents CMP _ _ hx sx r TO H R) as (t0 & H0 & IF & _).
  destruct (history_all CMP _ _ hx sx TO H) as (T & F & a & _ & RL & _). pose proof (R_inv _ _ _ _ RL) as IN.
  rewrite (trees_unique sx T r t IN R Q). rewrite (trees_unique sx T r t0 IN R H0) in IF.
  assert (ND := inv_nodup sx T r IN R).
  assert (IC : incl (inorder (T r)) [1; 3; 9]).
  { intros p P. apply IF in P. revert P. unfold placed, hx. cbn [fold_left note Z.eqb]. unfold upd.
    repeat match goal with |- context [?u =? ?v] => destruct (Z.eqb_spec u v); try (subst; cbn; intros; auto; congruence) end; cbn; intros; try congruence; tauto. }
  pose proof (NoDup_incl_length ND IC) as LE. cbn [length] in LE.
  pose proof (Nat.log2_le_mono (length (inorder (T r)) + 1) 4 ltac:(lia)) as L2. change (Nat.log2 4) with 2%nat in L2. lia.
Qed.

(** Insertions by hand: left of a node of a tree that has nothing to its left puts the
    new node immediately before it, and mirrored; otherwise it is refused. *)
Theorem C17_position : forall cmp valid ps h s x q fuel r0,
  history cmp permitted (start valid ps) h s -> orphan s x -> planted s q -> suffices s fuel ->
  exists r t A B, r <> 0 /\ get root s q = Some r /\ holds s r t /\ inorder t = A ++ q :: B /\
    (get left s q = Some 0 -> exists s' t', step cmp fuel s (InsertLeft x q r0) = Some (s', x) /\ holds s' r t' /\ inorder t' = A ++ x :: q :: B) /\
    (get right s q = Some 0 -> exists s' t', step cmp fuel s (InsertRight x q r0) = Some (s', x) /\ holds s' r t' /\ inorder t' = A ++ q :: x :: B) /\
    (get left s q <> Some 0 -> step cmp fuel s (InsertLeft x q r0) = Some (s, 0)) /\
    (get right s q <> Some 0 -> step cmp fuel s (InsertRight x q r0) = Some (s, 0)).
Proof.
  intros cmp valid ps h s x q fuel r0 H (nx & VX & RX) (nq & VQ & RQ) SF. destruct (permitted_history _ _ _ _ _ H) as (T & F & I & _).
  pose proof (suffices_deep s T fuel I SF _ RQ) as D.
  destruct (node_cases s T q nq I VQ) as [(C & _)|(_ & k & c & l & rt & TR)]; [contradiction|].
  assert (IT : inorder (T (root nq)) = (pre k ++ inorder l) ++ q :: inorder rt ++ post k).
  { rewrite TR, inorder_plug. cbn. rewrite <- !app_assoc. reflexivity. }
  pose proof (inv_whole s T (root nq) I RQ) as W. rewrite TR in W. destruct (node_at _ _ k c l q rt W) as (Q & v & VQ').
  exists (root nq), (T (root nq)), (pre k ++ inorder l), (inorder rt ++ post k). split; [exact RQ|]. split; [exact (get_eq _ _ _ _ VQ)|].
  split; [apply I, RQ|]. split; [exact IT|]. cbn [step]. unfold get. rewrite VQ'. cbn [left right].
  split; [|split; [|split]].
  - intros LE. destruct l as [|lc ll lx lr]; [|destruct (node_at _ _ (FL c q rt :: k) lc ll lx lr W) as (LX & _); cbn in LE; congruence].
    destruct (insert_left_at fuel s T (root nq) k c q rt x nx r0 I RQ TR VX RX) as (s' & t' & E1 & I' & IN & _); [lia|]. exists s', t'.
    split; [exact E1|]. split; [rewrite <- (upd_same T (root nq) t'); apply I', RQ|]. rewrite IN. cbn [inorder]. rewrite app_nil_r. reflexivity.
  - intros LE. destruct rt as [|lc ll lx lr]; [|destruct (node_at _ _ (FR c l q :: k) lc ll lx lr W) as (LX & _); cbn in LE; congruence].
    destruct (insert_right_at fuel s T (root nq) k c l q x nx r0 I RQ TR VX RX) as (s' & t' & E1 & I' & IN & _); [lia|]. exists s', t'.
    split; [exact E1|]. split; [rewrite <- (upd_same T (root nq) t'); apply I', RQ|]. rewrite IN. cbn [inorder app]. rewrite <- !app_assoc. reflexivity.
  - intros LE. unfold insert_left_or_root, isorphan. rewrite (get_eq _ _ _ _ VX), RX. cbn [bind Z.eqb negb]. unfold isleaf.
    destruct (Z.eqb_spec q 0); [contradiction|]. rewrite !(get_eq _ _ _ _ VQ'). cbn [bind left].
    destruct (Z.eqb_spec (top l) 0); [congruence|]. reflexivity.
  - intros LE. unfold insert_right_or_root, isorphan. rewrite (get_eq _ _ _ _ VX), RX. cbn [bind Z.eqb negb]. unfold isleaf.
    destruct (Z.eqb_spec q 0); [contradiction|]. rewrite !(get_eq _ _ _ _ VQ'). cbn [bind right].
    destruct (Z.eqb_spec (top rt) 0); [congruence|]. reflexivity.
Qed.
Print Assumptions C17_position.

Example C17_position_applies : exists h s, history CMP permitted S0 h s /\ orphan s 7 /\ planted s 2 /\ get left s 2 = Some 0 /\ suffices s 20.
Proof.
  pose proof (H_start CMP permitted S0) as H. call H (InsertRight 1 0 100); [split; [anode|left; split; [reflexivity|discriminate]]|].
  call H (InsertRight 2 1 0); [split; [anode|right; eexists; split; [vm_compute; reflexivity|discriminate]]|].
  match type of H with history _ _ _ ?h ?s => set (sx := s) in *; set (hx := h) in * end. exists hx, sx. split; [exact H|].
  split; [eexists; split; [vm_compute; reflexivity|reflexivity]|]. split; [eexists; split; [vm_compute; reflexivity|discriminate]|].
  split; [vm_compute; reflexivity|]. intros r t R Q. destruct (permitted_history _ _ _ _ _ H) as (T & F & IN & _).
  rewrite (trees_unique sx T r t IN R Q). pose proof (inv_nodup sx T r IN R) as ND.
  assert (IC : incl (inorder (T r)) [1; 2]).
  { intros p P. apply (owner_in sx T r p IN R) in P. revert P. unfold ownerof. destruct (Z.eq_dec p 1) as [->|N1]; [cbn; auto|]. destruct (Z.eq_dec p 2) as [->|N2]; [cbn; auto|].
    intros P. exfalso. revert P. subst sx. clear - N1 N2 R. cbn [step]. 
    match goal with |- context [nodes ?s p] => assert (E0 : forall n, nodes s p = Some n -> root n = 0) end.
    { intros n. vm_compute. repeat (destruct p as [|p|p] || destruct p as [p|p|]; try congruence; try (intros Q; injection Q as <-; reflexivity)). }
    destruct (nodes _ p) as [n|]; [rewrite (E0 n eq_refl); congruence|congruence]. }
  pose proof (NoDup_incl_length ND IC) as LE. cbn [length] in LE.
  pose proof (Nat.log2_le_mono (length (inorder (T r)) + 1) 4 ltac:(lia)) as L2. change (Nat.log2 4) with 2%nat in L2. lia.
Qed.

(** The comparators of the library. Strings are in a total order, that of the dictionary,
    in which only equal strings are equal. *)
Theorem C17_compare_strings : forall key : payload -> list Z,
  (forall v, text (key v)) ->
  total_order (fun a b => compare_strings (key a) (key b)) /\
  (forall a b, compare_strings (key a) (key b) = 0 <-> key a = key b) /\
  (forall a b, compare_strings (key a) (key b) < 0 <-> before (key a) (key b)).
Proof.
  intros key TX. split; [split|split].
  - intros a b. rewrite (strcmp_anti (key a) (key b)). lia.
  - intros a b c. apply strcmp_trans; apply TX.
  - intros a b. apply strcmp_eq; apply TX.
  - intros a b. apply strcmp_before; apply TX.
Qed.
Print Assumptions C17_compare_strings.
Example C17_strings : text [97; 98] /\ compare_strings [97; 98] [97; 98; 99] = -99 /\ compare_strings [98] [97; 98; 99] = 1.
Proof. split; [repeat constructor; lia|]. split; reflexivity. Qed.

(** Pointers are not: two four gigabytes apart are equal, and of two that are two
    gigabytes apart each is less than the other. *)
Theorem C17_compare_pointers_refuted :
  (exists a b, a <> b /\ compare_pointers a b = Some 0) /\
  (exists a b x y, compare_pointers a b = Some x /\ compare_pointers b a = Some y /\ x < 0 /\ y < 0).
Proof.
  split.
  - exists 4294967296, 0. split; [discriminate|reflexivity].
  - exists 2147483648, 0, (-2147483648), (-2147483648). split; [reflexivity|]. split; [reflexivity|]. lia.
Qed.
Print Assumptions C17_compare_pointers_refuted.
(** Closer together they are in order. *)
Theorem C17_compare_pointers : forall a b, Z.abs (a - b) < 2147483648 -> compare_pointers a b = Some (a - b).
Proof.
  intros a b H. unfold compare_pointers, ck_s64. destruct (Z.leb_spec (-9223372036854775808) (a - b)), (Z.ltb_spec (a - b) 9223372036854775808); try lia.
  cbn [andb bind]. unfold s32. rewrite Z.mod_small by lia. f_equal. lia.
Qed.
Print Assumptions C17_compare_pointers.
