(** Proofs about the buffer pool: memory, size classes and the invariant. *)

From Coq Require Import ZArith List Bool Lia Sorting.Sorted Sorting.Permutation.
From Verif Require Import CInt CUtil BufferModel BufferSpec.
Import ListNotations.
Local Open Scope Z_scope.

(** Words. *)
Lemma rd64_wr64_same m p v : 0 <= v < 2 ^ 64 -> rd64 (wr64 m p v) p = v.
Proof.
  intros V. unfold rd64, wr64.
  assert (A : forall i, 0 <= i < 8 -> (p <=? p + i) && (p + i <? p + 8) = true)
    by (intros i I; apply andb_true_iff; split; [apply Z.leb_le|apply Z.ltb_lt]; lia).
  pose proof (A 0 ltac:(lia)) as A0. rewrite Z.add_0_r in A0. rewrite A0, !A by lia. clear A A0.
  replace (p - p) with 0 by lia.
  repeat match goal with |- context [p + ?i - p] => replace (p + i - p) with i by lia end.
  repeat match goal with |- context [256 ^ ?x] => let y := eval vm_compute in (256 ^ x) in change (256 ^ x) with y end.
  rewrite Z.div_1_r.
  assert (D : forall k, 0 < k -> v / (256 * k) = v / k / 256) by (intros k K; rewrite Z.div_div by lia; f_equal; lia).
  pose proof (D 256 ltac:(lia)) as D1. pose proof (D 65536 ltac:(lia)) as D2. pose proof (D 16777216 ltac:(lia)) as D3.
  pose proof (D 4294967296 ltac:(lia)) as D4. pose proof (D 1099511627776 ltac:(lia)) as D5.
  pose proof (D 281474976710656 ltac:(lia)) as D6. pose proof (D 72057594037927936 ltac:(lia)) as D7.
  change (256 * 256) with 65536 in D1. change (256 * 65536) with 16777216 in D2. change (256 * 16777216) with 4294967296 in D3.
  change (256 * 4294967296) with 1099511627776 in D4. change (256 * 1099511627776) with 281474976710656 in D5.
  change (256 * 281474976710656) with 72057594037927936 in D6. change (256 * 72057594037927936) with 18446744073709551616 in D7.
  assert (Z7 : v / 18446744073709551616 = 0) by (apply Z.div_small; change (2 ^ 64) with 18446744073709551616 in V; lia).
  pose proof (Z.div_mod v 256). pose proof (Z.div_mod (v / 256) 256). pose proof (Z.div_mod (v / 65536) 256).
  pose proof (Z.div_mod (v / 16777216) 256). pose proof (Z.div_mod (v / 4294967296) 256).
  pose proof (Z.div_mod (v / 1099511627776) 256). pose proof (Z.div_mod (v / 281474976710656) 256).
  pose proof (Z.div_mod (v / 72057594037927936) 256). lia.
Qed.

Lemma wr64_other m p v x : x < p \/ p + 8 <= x -> wr64 m p v x = m x.
Proof.
  intros H. unfold wr64. destruct (Z.leb_spec p x), (Z.ltb_spec x (p + 8)); cbn; try reflexivity; lia.
Qed.

Lemma rd64_ext m m' p : (forall x, p <= x < p + 8 -> m' x = m x) -> rd64 m' p = rd64 m p.
Proof. intros H. unfold rd64. rewrite !H by lia. reflexivity. Qed.

(** Size classes. *)
Lemma hash_loop_spec n sizes : forall k, exists item,
  hash_loop sizes n k = (item, find (fun z => n <=? z) sizes) /\
  match find (fun z => n <=? z) sizes with
  | Some z => (k <= item < k + length sizes)%nat /\ nth_error sizes (item - k) = Some z /\ n <= z
  | None => item = (k + length sizes)%nat /\ Forall (fun z => z < n) sizes
  end.
Proof.
  induction sizes as [|z sizes IH]; intros k; cbn [hash_loop find length].
  - exists k. split; [reflexivity|]. split; [lia|constructor].
  - destruct (Z.ltb_spec z n), (Z.leb_spec n z); try lia.
    + destruct (IH (S k)) as (item & E & X). exists item. split; [exact E|].
      destruct (find _ sizes).
      * destruct X as (X1 & X2 & X3). split; [lia|]. split; [|exact X3].
        replace (item - k)%nat with (S (item - S k)) by lia. exact X2.
      * destruct X as (X1 & X2). split; [lia|constructor; assumption].
    + exists k. split; [reflexivity|]. split; [lia|]. split; [|lia]. rewrite Nat.sub_diag. reflexivity.
Qed.

(** A strictly increasing list of non negative numbers below n has at most n of
    them. *)
Lemma sorted_count sizes : forall lo n, StronglySorted Z.lt sizes -> Forall (fun z => lo <= z) sizes ->
  Forall (fun z => z < n) sizes -> lo <= n -> Z.of_nat (length sizes) <= n - lo.
Proof.
  induction sizes as [|z sizes IH]; intros lo n S L B LN; cbn [length]; [lia|].
  apply StronglySorted_inv in S as (S & F). apply Forall_cons_iff in L as (Lz & L). apply Forall_cons_iff in B as (Bz & B).
  pose proof (IH (z + 1) n S) as X. rewrite Nat2Z.inj_succ.
  assert (Forall (fun y => z + 1 <= y) sizes) by (eapply Forall_impl; [|exact F]; cbn; intros; lia).
  specialize (X H B). lia.
Qed.

Lemma hash_spec sizes n : pool_ok sizes -> 0 < n < LIMIT ->
  exists item, hash sizes n = (item, class sizes n + 8) /\ 0 < n <= class sizes n /\ class sizes n < LIMIT /\
  (((item < length sizes)%nat /\ nth_error sizes item = Some (class sizes n)) \/
   (item = length sizes /\ class sizes n = n /\ Z.of_nat (length sizes) <= n)).
Proof.
  intros (S & F) N. unfold hash, class. destruct (hash_loop_spec n sizes 0) as (item & E & X). rewrite E.
  exists item. unfold HEADER, LIMIT in *. change (2 ^ 64) with 18446744073709551616 in *. cbn in X.
  destruct (find _ sizes) as [z|] eqn:Fz.
  - destruct X as (X1 & X2 & X3). rewrite Nat.sub_0_r in X2.
    assert (Z0 : 0 <= z < 18446744073709551616 - 8)
      by (rewrite Forall_forall in F; apply F; apply nth_error_In in X2; exact X2).
    unfold u64. rewrite Z.mod_small by lia. split; [reflexivity|]. split; [lia|]. split; [lia|]. left. split; [lia|exact X2].
  - destruct X as (X1 & X2). unfold u64. rewrite Z.mod_small by lia. split; [reflexivity|]. split; [lia|]. split; [lia|].
    right. split; [exact X1|]. split; [reflexivity|].
    assert (Forall (fun z => 0 <= z) sizes) by (eapply Forall_impl; [|exact F]; cbn; intros; lia).
    pose proof (sorted_count sizes 0 n S H X2). lia.
Qed.

(** What the header of a buffer allocated for n octets has. *)
Definition hdr (sizes : list Z) (n : Z) : Z :=
  if (fst (hash sizes n) <? length sizes)%nat then Z.of_nat (fst (hash sizes n)) else snd (hash sizes n).

Lemma hdr_spec sizes n : pool_ok sizes -> Z.of_nat (length sizes) < 2 ^ 64 -> 0 < n < LIMIT ->
  0 <= hdr sizes n < 2 ^ 64 /\
  (((Z.to_nat (hdr sizes n) < length sizes)%nat /\ nth_error sizes (Z.to_nat (hdr sizes n)) = Some (class sizes n) /\
    hdr sizes n < Z.of_nat (length sizes) /\ Z.to_nat (hdr sizes n) = fst (hash sizes n)) \/
   (hdr sizes n = class sizes n + 8 /\ Z.of_nat (length sizes) <= hdr sizes n)).
Proof.
  intros P C N. destruct (hash_spec sizes n P N) as (item & E & B1 & B2 & X). unfold hdr. rewrite E. cbn [fst snd].
  unfold LIMIT in *. change (2 ^ 64) with 18446744073709551616 in *.
  destruct X as [(L & T)|(L & T & K)].
  - destruct (Nat.ltb_spec item (length sizes)); [|lia]. split; [lia|]. left. rewrite Nat2Z.id. auto with zarith.
  - destruct (Nat.ltb_spec item (length sizes)); [lia|]. split; [lia|]. right. lia.
Qed.

Lemma find_none_class sizes n : find (fun z => n <=? z) sizes = None -> class sizes n = n.
Proof. unfold class. intros ->. reflexivity. Qed.

Lemma hash_class sizes n : StronglySorted Z.lt sizes -> hash_loop sizes (class sizes n) 0 = hash_loop sizes n 0.
Proof.
  intros S. unfold class. generalize 0%nat. induction sizes as [|z sizes IH]; intros k; [reflexivity|].
  apply StronglySorted_inv in S as (S & F). cbn [find hash_loop].
  destruct (Z.leb_spec n z), (Z.ltb_spec z n); try lia.
  - destruct (Z.ltb_spec z z); [lia|reflexivity].
  - pose proof (IH S (Datatypes.S k)) as X. destruct (find (fun z => n <=? z) sizes) as [y|] eqn:E.
    + destruct (Z.ltb_spec z y); [exact X|]. apply find_some in E as (E & _). rewrite Forall_forall in F.
      specialize (F y E). lia.
    + destruct (Z.ltb_spec z n); [exact X|lia].
Qed.

Lemma class_class sizes n : StronglySorted Z.lt sizes -> class sizes (class sizes n) = class sizes n.
Proof.
  intros S. pose proof (hash_class sizes n S) as E.
  destruct (hash_loop_spec (class sizes n) sizes 0) as (i & E1 & _). destruct (hash_loop_spec n sizes 0) as (j & E2 & _).
  rewrite E1, E2 in E. injection E as _ E. unfold class at 1. rewrite E. unfold class. destruct (find (fun z => n <=? z) sizes); reflexivity.
Qed.

Lemma hash_same_class sizes n k : StronglySorted Z.lt sizes -> class sizes n = class sizes k -> hash sizes n = hash sizes k.
Proof.
  intros S E.
  assert (X : forall n, hash sizes n = hash sizes (class sizes n)).
  { intros x. unfold hash. pose proof (hash_class sizes x S) as Y. rewrite Y.
    destruct (hash_loop_spec x sizes 0) as (i & E1 & _). rewrite E1. unfold class. destruct (find (fun z => x <=? z) sizes); reflexivity. }
  rewrite (X n), (X k), E. reflexivity.
Qed.

Lemma hdr_same_class sizes n k : StronglySorted Z.lt sizes -> class sizes n = class sizes k -> hdr sizes n = hdr sizes k.
Proof. intros S E. unfold hdr. rewrite (hash_same_class sizes n k S E). reflexivity. Qed.

(** The heap. *)
Definition good (h : list (Z * Z)) : Prop :=
  NoDup (map fst h) /\
  (forall b z, In (b, z) h -> 0 < b /\ b mod 8 = 0 /\ 8 <= z /\ b + z <= 2 ^ 64) /\
  (forall b z b' z', In (b, z) h -> In (b', z') h -> b <> b' -> apart b z b' z').

Lemma good_perm h h' : Permutation h h' -> good h -> good h'.
Proof.
  intros P (N & B & D). assert (P' := Permutation_sym P). split; [|split].
  - eapply Permutation_NoDup; [apply Permutation_map, P|exact N].
  - intros b z I. apply B. exact (Permutation_in _ P' I).
  - intros b z b' z' I I'. apply D; [exact (Permutation_in _ P' I)|exact (Permutation_in _ P' I')].
Qed.

Lemma good_tail x h : good (x :: h) -> good h.
Proof.
  intros (N & B & D). split; [|split].
  - cbn in N. apply NoDup_cons_iff in N. tauto.
  - intros b z I. apply B. right. exact I.
  - intros b z b' z' I I'. apply D; right; assumption.
Qed.

Lemma accessible_iff h p n : accessible h p n = true <-> exists b z, In (b, z) h /\ b <= p /\ p + n <= b + z.
Proof.
  unfold accessible. rewrite existsb_exists. split.
  - intros ((b & z) & I & E). apply andb_true_iff in E as (E1 & E2). apply Z.leb_le in E1, E2. eauto.
  - intros (b & z & I & E1 & E2). exists (b, z). split; [exact I|]. apply andb_true_iff. split; apply Z.leb_le; assumption.
Qed.

Lemma good_header h b z : good h -> In (b, z) h -> accessible h b 8 = true.
Proof. intros (_ & B & _) I. apply accessible_iff. exists b, z. pose proof (B b z I). split; [exact I|lia]. Qed.

Lemma possible_good h b n : good h -> 8 <= n -> possible h b n = true -> good ((b, n) :: h).
Proof.
  intros (N & B & D) L P. unfold possible in P. rewrite !andb_true_iff in P. destruct P as (((P1 & P2) & P3) & P4).
  apply Z.ltb_lt in P1. apply Z.eqb_eq in P2. apply Z.leb_le in P3. rewrite forallb_forall in P4.
  assert (A : forall b' z', In (b', z') h -> apart b n b' z').
  { intros b' z' I. specialize (P4 _ I). cbn in P4. apply orb_true_iff in P4 as [P4|P4]; apply Z.leb_le in P4; unfold apart; lia. }
  split; [|split].
  - cbn. constructor; [|exact N]. intros I. apply in_map_iff in I as ((b' & z') & <- & I). cbn in *.
    pose proof (A b' z' I). pose proof (B b' z' I). unfold apart in *. lia.
  - intros b' z' [E|I]; [injection E as <- <-; change (2 ^ 64) with 18446744073709551616; lia|apply B; exact I].
  - intros b1 z1 b2 z2 [E1|I1] [E2|I2] NE.
    + congruence.
    + injection E1 as <- <-. auto.
    + injection E2 as <- <-. pose proof (A _ _ I1). unfold apart in *. lia.
    + eauto.
Qed.

Lemma release_ok h b : NoDup (map fst h) -> forall z, In (b, z) h ->
  exists h', release h b = Some h' /\ Permutation h ((b, z) :: h').
Proof.
  induction h as [|(b' & z') h IH]; intros N z I; [contradiction|]. cbn [release]. cbn in N. apply NoDup_cons_iff in N as (Nb & N).
  destruct (Z.eqb_spec b' b) as [->|NE].
  - exists h. split; [reflexivity|]. destruct I as [I|I]; [injection I as ->; reflexivity|].
    exfalso. apply Nb. apply in_map_iff. exists (b, z). auto.
  - destruct I as [I|I]; [congruence|]. destruct (IH N z I) as (h' & E & P). rewrite E. cbn [bind].
    exists ((b', z') :: h'). split; [reflexivity|]. rewrite P. apply perm_swap.
Qed.

(** Chains of free buffers. *)
Fixpoint chain (m : memory) (h : Z) (l : list Z) : Prop :=
  match l with
  | [] => h = 0
  | b :: l' => h = b /\ chain m (rd64 m b) l'
  end.

Lemma chain_ext m m' l : forall h, (forall b, In b l -> rd64 m' b = rd64 m b) -> chain m h l -> chain m' h l.
Proof.
  induction l as [|b l IH]; intros h E C; [exact C|]. destruct C as (-> & C). split; [reflexivity|].
  rewrite (E b (or_introl eq_refl)). apply IH; [intros; apply E; right; assumption|exact C].
Qed.

(** The blocks of the live and of the free buffers. *)
Notation lblocks := in_use.
Fixpoint fblocks (sizes : list Z) (frees : list (list Z)) : list (Z * Z) :=
  match sizes, frees with
  | z :: sizes', l :: frees' => map (fun b => (b, z + 8)) l ++ fblocks sizes' frees'
  | _, _ => []
  end.

Lemma fblocks_in sizes : forall frees i z l b, nth_error sizes i = Some z -> nth_error frees i = Some l -> In b l ->
  In (b, z + 8) (fblocks sizes frees).
Proof.
  induction sizes as [|y sizes IH]; intros frees i z l b Es Ef I; [destruct i; discriminate|].
  destruct frees as [|k frees]; [destruct i; discriminate|]. cbn [fblocks]. apply in_or_app. destruct i as [|i]; cbn in Es, Ef.
  - injection Es as ->. injection Ef as ->. left. apply in_map_iff. eauto.
  - right. eauto.
Qed.

Lemma fblocks_upd sizes : forall frees i z l b, nth_error sizes i = Some z -> nth_error frees i = Some l ->
  Permutation (fblocks sizes (upd frees i (b :: l))) ((b, z + 8) :: fblocks sizes frees).
Proof.
  induction sizes as [|y sizes IH]; intros frees i z l b Es Ef; [destruct i; discriminate|].
  destruct frees as [|k frees]; [destruct i; discriminate|]. destruct i as [|i]; cbn in Es, Ef.
  - injection Es as ->. injection Ef as ->. cbn. reflexivity.
  - cbn [upd fblocks]. rewrite (IH frees i z l b Es Ef). rewrite Permutation_app_comm. cbn.
    apply perm_skip. apply Permutation_app_comm.
Qed.

Lemma upd_nth_same {A} (l : list A) : forall i x, nth_error l i = Some x -> upd l i x = l.
Proof. induction l as [|y l IH]; intros [|i] x E; cbn in *; try discriminate; [congruence|]. rewrite IH; auto. Qed.

Lemma upd_upd {A} (l : list A) : forall i x y, upd (upd l i x) i y = upd l i y.
Proof. induction l as [|z l IH]; intros [|i] x y; cbn; try reflexivity. rewrite IH. reflexivity. Qed.

Lemma upd_nth {A} (l : list A) : forall i x, (i < length l)%nat -> nth_error (upd l i x) i = Some x.
Proof. induction l as [|y l IH]; intros [|i] x L; cbn in *; try lia; [reflexivity|]. apply IH. lia. Qed.

Lemma upd_length {A} (l : list A) : forall i x, length (upd l i x) = length l.
Proof. induction l as [|y l IH]; intros [|i] x; cbn; auto. Qed.

Lemma Forall2_upd {A B} (R : A -> B -> Prop) l k : Forall2 R l k -> forall i x y, R x y -> Forall2 R (upd l i x) (upd k i y).
Proof.
  induction 1 as [|a b l k H F IH]; intros i x y E; [constructor|]. destruct i; cbn; constructor; auto.
Qed.

Lemma Forall2_nth {A B} (R : A -> B -> Prop) l k : Forall2 R l k -> forall i x, nth_error l i = Some x ->
  exists y, nth_error k i = Some y /\ R x y.
Proof. induction 1 as [|a b l k H F IH]; intros [|i] x E; cbn in *; try discriminate; [injection E as <-; eauto|eauto]. Qed.

Lemma Forall2_nth2 {A B} (R : A -> B -> Prop) l k : Forall2 R l k -> forall i, (i < length k)%nat ->
  exists x y, nth_error l i = Some x /\ nth_error k i = Some y /\ R x y.
Proof. induction 1 as [|a b l k H F IH]; intros [|i] L; cbn in *; try lia; [eauto|]. apply IH. lia. Qed.

Lemma Forall2_len {A B} (R : A -> B -> Prop) l k : Forall2 R l k -> length l = length k.
Proof. induction 1; cbn; congruence. Qed.

(** The invariant. *)
Record Inv (sizes : list Z) (s : st) (live : buffers) (frees : list (list Z)) : Prop := {
  I_len : length frees = length sizes;
  I_chain : Forall2 (chain (mem s)) (heads s) frees;
  I_heap : Permutation (heap s) (lblocks sizes live ++ fblocks sizes frees);
  I_good : good (heap s);
  I_live : forall p n, In (p, n) live -> 0 < n < LIMIT /\ rd64 (mem s) (p - 8) = hdr sizes n
}.

Definition sizes_ok (sizes : list Z) : Prop := pool_ok sizes /\ Z.of_nat (length sizes) < 2 ^ 64.

Lemma inv_in sizes s live frees p n : Inv sizes s live frees -> In (p, n) live ->
  In (p - 8, class sizes n + 8) (heap s).
Proof.
  intros I H. apply (Permutation_in _ (Permutation_sym (I_heap _ _ _ _ I))). apply in_or_app. left.
  apply in_map_iff. exists (p, n). auto.
Qed.

Lemma inv_free sizes s live frees i z l b : Inv sizes s live frees -> nth_error sizes i = Some z ->
  nth_error frees i = Some l -> In b l -> In (b, z + 8) (heap s).
Proof.
  intros I Es Ef H. apply (Permutation_in _ (Permutation_sym (I_heap _ _ _ _ I))). apply in_or_app. right.
  exact (fblocks_in sizes frees i z l b Es Ef H).
Qed.

(** A change of memory confined to one block. *)
Definition only (m m' : memory) (b z : Z) : Prop := forall x, x < b \/ b + z <= x -> m' x = m x.

Lemma only_rd m m' b z b' z' : only m m' b z -> apart b z b' z' -> 8 <= z' -> rd64 m' b' = rd64 m b'.
Proof. intros O A L. apply rd64_ext. intros x X. apply O. unfold apart in A. lia. Qed.

Lemma only_trans m m' m'' b z : only m m' b z -> only m' m'' b z -> only m m'' b z.
Proof. intros A B x X. rewrite (B x X). apply A, X. Qed.

(** Chains survive a change in a block that is none of theirs. *)
Lemma chains_frame sizes h frees hs m m' b z :
  good ((b, z) :: h) -> (forall x, In x (fblocks sizes frees) -> In x h) -> length frees = length sizes ->
  only m m' b z -> Forall2 (chain m) hs frees -> Forall2 (chain m') hs frees.
Proof.
  intros G S L O F.
  assert (X : forall l, In l frees -> forall c, In c l -> rd64 m' c = rd64 m c).
  { intros l Il c Ic. apply In_nth_error in Il as (i & Ei).
    assert (Li : (i < length sizes)%nat) by (rewrite <- L; apply nth_error_Some; congruence).
    destruct (nth_error sizes i) as [y|] eqn:Ey; [|apply nth_error_None in Ey; lia].
    pose proof (S _ (fblocks_in sizes frees i y l c Ey Ei Ic)) as I.
    destruct G as (N & B & D). eapply (only_rd _ _ b z c (y + 8) O).
    - apply D; [left; reflexivity|right; exact I|]. intros ->. cbn in N. apply NoDup_cons_iff in N as (N & _).
      apply N. apply in_map_iff. exists (c, y + 8). auto.
    - apply (B c (y + 8)). right. exact I. }
  clear S L. induction F as [|c l hs frees C F IH]; constructor.
  - eapply chain_ext; [|exact C]. intros. apply (X l); [left; reflexivity|assumption].
  - apply IH. intros. apply (X l0); [right; assumption|assumption].
Qed.

(** The octets of the buffers an application has. *)
Definition frame (m m' : memory) (live : buffers) : Prop :=
  forall p n x, In (p, n) live -> p <= x < p + n -> m' x = m x.

Lemma frame_trans m m' m'' live : frame m m' live -> frame m' m'' live -> frame m m'' live.
Proof. intros A B p n x I X. rewrite (B p n x I X). exact (A p n x I X). Qed.

(** Live buffers survive such a change too. *)
Lemma live_frame sizes h live m m' b z : sizes_ok sizes ->
  good ((b, z) :: h) -> (forall x, In x (lblocks sizes live) -> In x h) ->
  only m m' b z ->
  (forall p n, In (p, n) live -> 0 < n < LIMIT /\ rd64 m (p - 8) = hdr sizes n) ->
  (forall p n, In (p, n) live -> 0 < n < LIMIT /\ rd64 m' (p - 8) = hdr sizes n) /\ frame m m' live.
Proof.
  intros (P & C) G S O F.
  assert (X : forall p n, In (p, n) live -> apart b z (p - 8) (class sizes n + 8) /\ 0 < n <= class sizes n).
  { intros p n I. assert (J : In (p - 8, class sizes n + 8) h) by (apply S, in_map_iff; exists (p, n); auto).
    destruct G as (N & B & D). split.
    - apply D; [left; reflexivity|right; exact J|]. intros E. cbn in N. apply NoDup_cons_iff in N as (N & _).
      apply N. apply in_map_iff. exists (p - 8, class sizes n + 8). auto.
    - destruct (F p n I) as (F1 & _). destruct (hash_spec sizes n P F1) as (item & _ & X & _). exact X. }
  split.
  - intros p n I. destruct (F p n I) as (F1 & F2), (X p n I) as (X1 & X2). split; [exact F1|].
    rewrite <- F2. eapply only_rd; [exact O|exact X1|lia].
  - intros p n x I Hx. destruct (X p n I) as (X1 & X2). apply O. unfold apart in X1. lia.
Qed.

(** Taking one live buffer out. *)
Lemma forget_perm live p n : NoDup (map fst live) -> In (p, n) live -> Permutation live ((p, n) :: forget live p).
Proof.
  induction live as [|(q & k) live IH]; intros N I; [contradiction|]. cbn in N. apply NoDup_cons_iff in N as (Nq & N).
  unfold forget. cbn [filter fst]. destruct (Z.eqb_spec q p) as [->|NE]; cbn [negb].
  - assert (n = k) as ->.
    { destruct I as [I|I]; [congruence|]. exfalso. apply Nq. apply in_map_iff. exists (p, n). auto. }
    apply perm_skip. fold (forget live p). clear - Nq. induction live as [|(q & k') live IH]; [reflexivity|].
    unfold forget. cbn [filter fst] in *. cbn in Nq. destruct (Z.eqb_spec q p); [exfalso; apply Nq; left; assumption|].
    cbn [negb]. apply perm_skip. apply IH. tauto.
  - destruct I as [I|I]; [congruence|]. rewrite perm_swap. apply perm_skip. exact (IH N I).
Qed.

Lemma forget_none live p : (forall n, ~ In (p, n) live) -> forget live p = live.
Proof.
  induction live as [|(q & k) live IH]; intros N; [reflexivity|]. unfold forget. cbn [filter fst].
  destruct (Z.eqb_spec q p) as [->|NE]; [exfalso; apply (N k); left; reflexivity|]. cbn [negb]. f_equal. apply IH.
  intros n I. apply (N n). right. exact I.
Qed.

Lemma forget_in live p q n : In (q, n) (forget live p) <-> In (q, n) live /\ q <> p.
Proof.
  unfold forget. rewrite filter_In. cbn. rewrite negb_true_iff, Z.eqb_neq. reflexivity.
Qed.

Lemma live_nodup sizes live frees h : Permutation h (lblocks sizes live ++ fblocks sizes frees) -> good h ->
  NoDup (map fst live).
Proof.
  intros P G. apply (good_perm _ _ P) in G as (N & _). rewrite map_app in N.
  assert (X : NoDup (map fst (lblocks sizes live))).
  { clear - N. induction (map fst (lblocks sizes live)); [constructor|]. cbn in N. apply NoDup_cons_iff in N as (A & B).
    constructor; [|auto]. intros I. apply A. apply in_or_app. auto. }
  unfold in_use in X. rewrite map_map in X.
  replace (map (fun x => fst (fst x - 8, class sizes (snd x) + 8)) live)
    with (map (fun q => q - 8) (map fst live)) in X.
  - revert X. apply NoDup_map_inv.
  - rewrite map_map. apply map_ext. intros (p & n). reflexivity.
Qed.
