(** Proofs about the buffer pool: the steps. *)

From Coq Require Import ZArith List Bool Lia Sorting.Sorted Sorting.Permutation.
From Verif Require Import CInt CUtil BufferModel BufferSpec BufferProofs.
Import ListNotations.
Local Open Scope Z_scope.

(** The invariant with one block that is neither live nor free. *)
Record Pre (sizes : list Z) (s : st) (live : buffers) (frees : list (list Z)) (b z : Z) : Prop := {
  P_len : length frees = length sizes;
  P_chain : Forall2 (chain (mem s)) (heads s) frees;
  P_heap : Permutation (heap s) ((b, z) :: lblocks sizes live ++ fblocks sizes frees);
  P_good : good (heap s);
  P_live : forall p n, In (p, n) live -> 0 < n < LIMIT /\ rd64 (mem s) (p - 8) = hdr sizes n
}.

Section Pool.
  Context (sizes : list Z) (SO : sizes_ok sizes).
  Set Default Proof Using "All".

  Lemma pre_block s live frees b z : Pre sizes s live frees b z -> In (b, z) (heap s) /\ accessible (heap s) b 8 = true /\
    0 < b /\ b mod 8 = 0 /\ 8 <= z /\ b + z <= 2 ^ 64.
  Proof.
    intros P. assert (I : In (b, z) (heap s)).
    { apply (Permutation_in _ (Permutation_sym (P_heap _ _ _ _ _ _ P))). left. reflexivity. }
    split; [exact I|]. split; [exact (good_header _ _ _ (P_good _ _ _ _ _ _ P) I)|].
    destruct (P_good _ _ _ _ _ _ P) as (_ & B & _). exact (B b z I).
  Qed.

  (** A change confined to that block. *)
  Lemma pre_only s live frees b z m' : Pre sizes s live frees b z -> only (mem s) m' b z ->
    Pre sizes (set_mem s m') live frees b z /\ frame (mem s) m' live.
  Proof.
    intros P O. destruct P as [L C H G V].
    assert (G' : good ((b, z) :: lblocks sizes live ++ fblocks sizes frees)) by exact (good_perm _ _ H G).
    destruct (live_frame sizes _ live (mem s) m' b z SO G') as (V' & F).
    - intros x I. apply in_or_app. auto.
    - exact O.
    - exact V.
    - split; [|exact F]. constructor; cbn; auto.
      eapply (chains_frame sizes _ frees); [exact G'| |exact L|exact O|exact C].
      intros x I. apply in_or_app. auto.
  Qed.

  (** Where such a block comes from: malloc, a free buffer, a live buffer. *)
  Lemma pre_of_malloc s live frees z a s' b : Inv sizes s live frees -> 8 <= z -> malloc s z a = (s', b) ->
    (b = 0 /\ s' = s) \/
    (b <> 0 /\ heap s' = (b, z) :: heap s /\ fail s' = fail s /\ Pre sizes s' live frees b z /\ frame (mem s) (mem s') live).
  Proof.
    intros I Z8 E. unfold malloc in E. destruct a as [(a & contents)|]; [|injection E as <- <-; left; auto].
    destruct (possible (heap s) a z) eqn:P; [|injection E as <- <-; left; auto]. injection E as <- <-. right.
    pose proof (possible_good _ _ _ (I_good _ _ _ _ I) Z8 P) as G.
    assert (a <> 0). { unfold possible in P. rewrite !andb_true_iff in P. destruct P as (((P & _) & _) & _). apply Z.ltb_lt in P. lia. }
    split; [assumption|]. split; [reflexivity|]. split; [reflexivity|].
    pose (s1 := St (mem s) ((a, z) :: heap s) (heads s) (fail s)).
    assert (P1 : Pre sizes s1 live frees a z).
    { destruct I as [L C Hp G0 V]. constructor; cbn; auto. }
    destruct (pre_only s1 live frees a z (fun x => if (a <=? x) && (x <? a + z) then contents x else mem s x) P1) as (P2 & F2).
    - intros x X. cbn. destruct (Z.leb_spec a x), (Z.ltb_spec x (a + z)); cbn; try reflexivity; lia.
    - split; [exact P2|exact F2].
  Qed.

  Lemma pre_of_get s live frees i z b l : Inv sizes s live frees -> nth_error sizes i = Some z ->
    nth_error frees i = Some (b :: l) ->
    exists s', buffer_pool_get s i = Some (s', b) /\ b <> 0 /\ heap s' = heap s /\ mem s' = mem s /\ fail s' = fail s /\
      Pre sizes s' live (upd frees i l) b (z + 8).
  Proof.
    intros I Es Ef. destruct I as [L C H G V].
    assert (Li : (i < length frees)%nat) by (apply nth_error_Some; congruence).
    destruct (Forall2_nth2 _ _ _ C i Li) as (h & l' & Eh & Ef' & Ch). rewrite Ef in Ef'. injection Ef' as <-.
    destruct Ch as (-> & Ch).
    assert (Ib : In (b, z + 8) (heap s)).
    { apply (Permutation_in _ (Permutation_sym H)). apply in_or_app. right. eapply fblocks_in; eauto. left. reflexivity. }
    assert (B : 0 < b) by (destruct G as (_ & G & _); apply (G b (z + 8)); exact Ib).
    unfold buffer_pool_get. rewrite Eh. cbn [bind]. destruct (Z.eqb_spec b 0); [lia|].
    unfold load64. rewrite (good_header _ _ _ G Ib). cbn [bind]. eexists. split; [reflexivity|].
    split; [lia|]. split; [reflexivity|]. split; [reflexivity|]. split; [reflexivity|].
    assert (El : (i < length (upd frees i l))%nat) by (rewrite upd_length; exact Li).
    constructor; cbn.
    - rewrite upd_length. exact L.
    - apply Forall2_upd; [exact C|exact Ch].
    - rewrite H. pose proof (fblocks_upd sizes (upd frees i l) i z l b Es (upd_nth frees i l Li)) as X.
      rewrite upd_upd, (upd_nth_same frees i _ Ef) in X. rewrite X. rewrite Permutation_app_comm. cbn. apply perm_skip, Permutation_app_comm.
    - exact G.
    - exact V.
  Qed.

  Lemma lblocks_forget s live frees p n : Permutation (heap s) (lblocks sizes live ++ fblocks sizes frees) -> good (heap s) ->
    In (p, n) live ->
    Permutation (lblocks sizes live) ((p - 8, class sizes n + 8) :: lblocks sizes (forget live p)).
  Proof.
    intros H G I. pose proof (live_nodup _ _ _ _ H G) as N. unfold in_use.
    rewrite (Permutation_map (fun x => (fst x - 8, class sizes (snd x) + 8)) (forget_perm live p n N I)). reflexivity.
  Qed.

  Lemma pre_of_live s live frees p n : Inv sizes s live frees -> In (p, n) live ->
    Pre sizes s (forget live p) frees (p - 8) (class sizes n + 8).
  Proof.
    intros [L C H G V] I. constructor; auto.
    - rewrite H, (lblocks_forget s live frees p n H G I). reflexivity.
    - intros q k J. apply forget_in in J as (J & _). auto.
  Qed.

  Lemma inv_of_pre s live frees p n : Inv sizes s live frees -> In (p, n) live -> forall s',
    Pre sizes s' (forget live p) frees (p - 8) (class sizes n + 8) -> rd64 (mem s') (p - 8) = hdr sizes n ->
    Inv sizes s' live frees.
  Proof.
    intros [L C H G V] I s' [L' C' H' G' V'] R. constructor; auto.
    - rewrite H', (lblocks_forget s live frees p n H G I). reflexivity.
    - intros q k J. destruct (Z.eq_dec q p) as [->|NE].
      + assert (k = n) as ->.
        { pose proof (live_nodup _ _ _ _ H G) as N. pose proof (forget_perm live p n N I) as P.
          apply (Permutation_in _ P) in J. destruct J as [J|J]; [congruence|]. apply forget_in in J. tauto. }
        split; [apply (V p n I)|exact R].
      + apply V'. apply forget_in. auto.
  Qed.

  (** Where such a block goes: to a live buffer, to a free buffer, to the heap. *)
  Lemma init_ok s live frees b n : 0 < n < LIMIT -> Pre sizes s live frees b (class sizes n + 8) ->
    exists s', buffer_pool_init sizes s b (fst (hash sizes n)) (snd (hash sizes n)) = Some (s', b + 8) /\ fail s' = fail s /\
      heap s' = heap s /\ Inv sizes s' ((b + 8, n) :: live) frees /\ frame (mem s) (mem s') live.
  Proof.
    intros N P. destruct (pre_block _ _ _ _ _ P) as (_ & A & B). unfold buffer_pool_init, store64. rewrite A. cbn [bind].
    change (if (fst (hash sizes n) <? length sizes)%nat then Z.of_nat (fst (hash sizes n)) else snd (hash sizes n)) with (hdr sizes n).
    eexists. split; [reflexivity|]. split; [reflexivity|]. split; [reflexivity|].
    destruct (pre_only s live frees b _ (wr64 (mem s) b (hdr sizes n)) P) as (P' & F).
    { intros x X. apply wr64_other. lia. }
    split; [|exact F]. destruct P' as [L C H G V]. constructor; cbn [set_mem heap heads fail mem] in *; auto.
    - rewrite H. cbn. replace (b + 8 - 8) with b by lia. reflexivity.
    - intros p k [E|I]; [|auto]. injection E as <- <-. split; [exact N|]. replace (b + 8 - 8) with b by lia.
      apply rd64_wr64_same. destruct SO as (S1 & S2). apply (hdr_spec sizes n S1 S2 N).
  Qed.

  Lemma put_ok s live frees b i z l : nth_error sizes i = Some z -> nth_error frees i = Some l ->
    Pre sizes s live frees b (z + 8) ->
    exists s', buffer_pool_put s b i = Some s' /\ fail s' = fail s /\ heap s' = heap s /\
      Inv sizes s' live (upd frees i (b :: l)) /\ frame (mem s) (mem s') live.
  Proof.
    intros Es Ef P. destruct (pre_block _ _ _ _ _ P) as (_ & A & B). unfold buffer_pool_put.
    assert (Li : (i < length frees)%nat) by (apply nth_error_Some; congruence).
    destruct (Forall2_nth2 _ _ _ (P_chain _ _ _ _ _ _ P) i Li) as (h & l' & Eh & Ef' & Ch).
    rewrite Ef in Ef'. injection Ef' as <-. rewrite Eh. cbn [bind]. unfold store64. rewrite A. cbn [bind].
    eexists. split; [reflexivity|]. split; [reflexivity|]. split; [reflexivity|].
    destruct (pre_only s live frees b _ (wr64 (mem s) b h) P) as (P' & F).
    { intros x X. apply wr64_other. lia. }
    split; [|exact F].
    assert (Hr : 0 <= h < 2 ^ 64).
    { destruct l as [|c l]; cbn in Ch; [subst h; lia|]. destruct Ch as (-> & _).
      destruct (P_good _ _ _ _ _ _ P) as (_ & G & _).
      assert (I : In (c, z + 8) (heap s)).
      { apply (Permutation_in _ (Permutation_sym (P_heap _ _ _ _ _ _ P))). right. apply in_or_app. right.
        eapply fblocks_in; eauto. left. reflexivity. }
      pose proof (G c _ I). lia. }
    destruct P' as [L C H G V]. constructor; cbn [set_mem set_heads heap heads fail mem] in *; auto.
    - rewrite upd_length. exact L.
    - apply Forall2_upd; [exact C|]. split; [reflexivity|]. rewrite rd64_wr64_same by exact Hr.
      destruct (Forall2_nth2 _ _ _ C i Li) as (h2 & l2 & Eh2 & Ef2 & Ch2). congruence.
    - rewrite H, (fblocks_upd sizes frees i z l b Es Ef). apply Permutation_cons_app. reflexivity.
  Qed.

  Lemma free_ok s live frees b z : Pre sizes s live frees b z ->
    exists s', free s b = Some s' /\ fail s' = fail s /\ mem s' = mem s /\ heads s' = heads s /\ Inv sizes s' live frees /\
      Permutation (heap s) ((b, z) :: heap s').
  Proof.
    intros P. destruct (pre_block _ _ _ _ _ P) as (I & _). destruct P as [L C H G V].
    destruct (release_ok (heap s) b (proj1 G) z I) as (h' & E & Ph). unfold free. rewrite E. cbn [bind].
    eexists. split; [reflexivity|]. split; [reflexivity|]. split; [reflexivity|]. split; [reflexivity|]. split; [|exact Ph].
    constructor; cbn; auto.
    - rewrite Ph in H. apply Permutation_cons_inv in H. exact H.
    - apply (good_tail (b, z)). exact (good_perm _ _ Ph G).
  Qed.

  (** A write into a live buffer. *)
  Lemma inv_write s live frees p n m' : Inv sizes s live frees -> In (p, n) live -> only (mem s) m' p n ->
    Inv sizes (set_mem s m') live frees /\ frame (mem s) m' (forget live p).
  Proof.
    intros I J O. pose proof (pre_of_live s live frees p n I J) as P.
    destruct SO as (S1 & S2). destruct (I_live _ _ _ _ I p n J) as (N & R).
    destruct (hash_spec sizes n S1 N) as (_ & _ & B & _).
    destruct (pre_only s _ frees _ _ m' P) as (P' & F).
    { intros x X. apply O. lia. }
    split; [|exact F]. apply (inv_of_pre s live frees p n I J _ P'). cbn. rewrite <- R. apply rd64_ext.
    intros x X. apply O. lia.
  Qed.

  (** diminuto_buffer_pool_get. *)
  Lemma pool_get_ok s live frees n nomalloc a : Inv sizes s live frees -> 0 < n < LIMIT ->
    exists s' r frees', pool_get sizes s n nomalloc a = Some (s', r) /\ fail s' = fail s /\
      Inv sizes s' (gained live r n) frees' /\ frame (mem s) (mem s') live /\ (r = 0 -> s' = s) /\
      (r = 0 \/ heap s' = heap s \/ heap s' = (r - 8, class sizes n + 8) :: heap s).
  Proof.
    intros I N. assert (S' := SO). destruct S' as (S1 & S2).
    destruct (hash_spec sizes n S1 N) as (item & E & B1 & B2 & X). unfold pool_get.
    destruct (Z.eqb_spec n 0); [lia|]. rewrite E.
    assert (M : forall nm, exists s' r frees',
      (let* '(s1, buffer) := Some (buffer_pool_malloc s (class sizes n + 8) nm a) in
       if buffer =? 0 then Some (s1, 0) else buffer_pool_init sizes s1 buffer item (class sizes n + 8)) = Some (s', r) /\
      fail s' = fail s /\ Inv sizes s' (gained live r n) frees' /\ frame (mem s) (mem s') live /\ (r = 0 -> s' = s) /\
      (r = 0 \/ heap s' = heap s \/ heap s' = (r - 8, class sizes n + 8) :: heap s)).
    { intros nm. unfold buffer_pool_malloc. cbn [bind].
      assert (Z0 : exists s' r frees', Some (s, 0) = Some (s', r) /\ fail s' = fail s /\ Inv sizes s' (gained live r n) frees' /\
        frame (mem s) (mem s') live /\ (r = 0 -> s' = s) /\
        (r = 0 \/ heap s' = heap s \/ heap s' = (r - 8, class sizes n + 8) :: heap s)).
      { exists s, 0, frees. split; [reflexivity|]. split; [reflexivity|]. split; [exact I|].
        split; [intros p k x _ _; reflexivity|]. auto. }
      destruct nm; [exact Z0|]. destruct (malloc s (class sizes n + 8) a) as (s1 & b) eqn:EM. cbn [bind].
      destruct (pre_of_malloc s live frees (class sizes n + 8) a s1 b I ltac:(lia) EM) as [(-> & ->)|(Nb & Hh & Hf & P & F)].
      - exact Z0.
      - destruct (Z.eqb_spec b 0); [contradiction|]. destruct (init_ok s1 live frees b n N P) as (s' & E' & F' & Hh' & I' & Fr').
        rewrite E in E'. cbn [fst snd] in E'. rewrite E'. exists s', (b + 8), frees. split; [reflexivity|].
        destruct (pre_block _ _ _ _ _ P) as (_ & _ & Bb).
        split; [congruence|]. split; [unfold gained; destruct (Z.eqb_spec (b + 8) 0); [lia|exact I']|].
        split; [eapply frame_trans; eassumption|]. split; [lia|]. right. right. rewrite Hh', Hh. f_equal. f_equal. lia. }
    unfold isexternal. destruct X as [(Li & Es)|(Li & Ec & Lc)].
    - destruct (Z.leb_spec (Z.of_nat (length sizes)) (Z.of_nat item)); [lia|].
      assert (Lf : (item < length frees)%nat) by (rewrite (I_len _ _ _ _ I); exact Li).
      destruct (Forall2_nth2 _ _ _ (I_chain _ _ _ _ I) item Lf) as (h & l & Eh & Ef & Ch). rewrite Eh. cbn [bind].
      destruct l as [|b l].
      + cbn in Ch. subst h. destruct (M nomalloc) as (s' & r & frees' & R). exists s', r, frees'. exact R.
      + destruct (pre_of_get s live frees item _ b l I Es Ef) as (s1 & E1 & Nb & H1 & M1 & F1 & P).
        destruct Ch as (-> & _). destruct (Z.eqb_spec b 0); [contradiction|]. rewrite E1. cbn [bind].
        destruct (Z.eqb_spec b 0); [contradiction|].
        destruct (init_ok s1 live (upd frees item l) b n N P) as (s' & E' & F' & H' & I' & Fr').
        rewrite E in E'. cbn [fst snd] in E'. rewrite E'. exists s', (b + 8), (upd frees item l). split; [reflexivity|].
        destruct (pre_block _ _ _ _ _ P) as (_ & _ & Bb).
        split; [congruence|]. split; [unfold gained; destruct (Z.eqb_spec (b + 8) 0); [lia|exact I']|].
        split; [rewrite <- M1; exact Fr'|]. split; [lia|]. right. left. congruence.
    - destruct (Z.leb_spec (Z.of_nat (length sizes)) (Z.of_nat item)); [|lia].
      destruct (M nomalloc) as (s' & r & frees' & R). exists s', r, frees'. exact R.
  Qed.

  (** diminuto_buffer_pool_put. *)
  Lemma pool_put_ok s live frees p n : Inv sizes s live frees -> In (p, n) live ->
    exists s' frees', pool_put sizes s p = Some s' /\ fail s' = fail s /\ Inv sizes s' (forget live p) frees' /\
      frame (mem s) (mem s') (forget live p) /\
      (forall z, nth_error sizes (fst (hash sizes n)) = Some z ->
         heap s' = heap s /\ exists l, nth_error frees' (fst (hash sizes n)) = Some ((p - 8) :: l)).
  Proof.
    intros I J. assert (S' := SO). destruct S' as (S1 & S2).
    pose proof (pre_of_live s live frees p n I J) as P. destruct (pre_block _ _ _ _ _ P) as (_ & A & B).
    destruct (I_live _ _ _ _ I p n J) as (N & R). unfold pool_put. destruct (Z.eqb_spec p 0); [lia|].
    unfold load64, HEADER. rewrite A, R. cbn [bind].
    destruct (hdr_spec sizes n S1 S2 N) as (H1 & [(H2 & H3 & H4 & H5)|(H2 & H3)]); unfold isexternal.
    - destruct (Z.leb_spec (Z.of_nat (length sizes)) (hdr sizes n)); [lia|].
      assert (Lf : (Z.to_nat (hdr sizes n) < length frees)%nat) by (rewrite (I_len _ _ _ _ I); exact H2).
      destruct (nth_error frees (Z.to_nat (hdr sizes n))) as [l|] eqn:Ef; [|apply nth_error_None in Ef; lia].
      destruct (put_ok s _ frees (p - 8) _ _ l H3 Ef P) as (s' & E & F & Hh & I' & Fr).
      rewrite E. exists s', (upd frees (Z.to_nat (hdr sizes n)) ((p - 8) :: l)). split; [reflexivity|]. split; [exact F|]. split; [exact I'|].
      split; [exact Fr|]. intros z _. split; [exact Hh|]. exists l. rewrite <- H5. apply upd_nth. exact Lf.
    - destruct (Z.leb_spec (Z.of_nat (length sizes)) (hdr sizes n)); [|lia].
      destruct (free_ok s _ frees _ _ P) as (s' & E & F & M & _ & I' & _). rewrite E. exists s', frees.
      split; [reflexivity|]. split; [exact F|]. split; [exact I'|]. split; [intros q k x _ _; rewrite M; reflexivity|].
      intros z Ez. exfalso. destruct (hash_spec sizes n S1 N) as (item & Eh & _ & _ & X). rewrite Eh in Ez. cbn in Ez.
      unfold hdr in H2. rewrite Eh in H2. cbn [fst snd] in H2.
      assert (item < length sizes)%nat by (apply nth_error_Some; congruence).
      unfold hdr in H3. rewrite Eh in H3. cbn [fst snd] in H3. destruct (Nat.ltb_spec item (length sizes)); lia.
  Qed.
End Pool.
