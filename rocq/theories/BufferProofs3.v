(** Proofs about the buffer pool: the public calls. *)

From Coq Require Import ZArith List Bool Lia Sorting.Sorted Sorting.Permutation.
From Verif Require Import CInt CUtil BufferModel BufferSpec BufferProofs BufferProofs2.
Import ListNotations.
Local Open Scope Z_scope.

Section Pool.
  Context (sizes : list Z) (SO : sizes_ok sizes).
  Set Default Proof Using "All".

  Lemma live_pos s live frees p n : Inv sizes s live frees -> In (p, n) live ->
    8 < p /\ p mod 8 = 0 /\ 0 < n <= class sizes n /\ p + class sizes n <= 2 ^ 64 /\ In (p - 8, class sizes n + 8) (heap s).
  Proof.
    intros I J. pose proof (inv_in sizes s live frees p n I J) as B. destruct (I_good _ _ _ _ I) as (_ & G & _).
    destruct (G _ _ B) as (G1 & G2 & G3 & G4). destruct (I_live _ _ _ _ I p n J) as (N & _). destruct SO as (S1 & S2).
    destruct (hash_spec sizes n S1 N) as (_ & _ & C & _).
    split; [lia|]. split; [replace p with (p - 8 + 1 * 8) by lia; rewrite Z.mod_add by lia; exact G2|]. split; [exact C|].
    split; [lia|exact B].
  Qed.

  Lemma live_access s live frees p n i k : Inv sizes s live frees -> In (p, n) live -> 0 <= i -> i + k <= class sizes n ->
    accessible (heap s) (p + i) k = true.
  Proof.
    intros I J I0 K. destruct (live_pos s live frees p n I J) as (A1 & A2 & A3 & A4 & A5). apply accessible_iff.
    exists (p - 8), (class sizes n + 8). split; [exact A5|]. lia.
  Qed.

  Lemma forget_zero s live frees : Inv sizes s live frees -> forget live 0 = live.
  Proof. intros I. apply forget_none. intros n J. destruct (live_pos s live frees 0 n I J). lia. Qed.

  Lemma frame_refl m live : frame m m live.
  Proof. intros p n x _ _. reflexivity. Qed.

  Lemma frame_sub m m' live live' : (forall x, In x live' -> In x live) -> frame m m' live -> frame m m' live'.
  Proof. intros S F p n x I. apply (F p n x). apply S, I. Qed.

  Lemma gained_sub live r n x : In x live -> In x (gained live r n).
  Proof. unfold gained. destruct (r =? 0); [auto|right; auto]. Qed.

  (** diminuto_buffer_malloc. *)
  Lemma malloc_ok s live frees n a : Inv sizes s live frees -> 0 <= n < LIMIT ->
    exists s' r frees', buffer_malloc sizes s n a = Some (s', r) /\ Inv sizes s' (gained live r n) frees' /\
      frame (mem s) (mem s') live /\ (r = 0 -> s' = s) /\ (n = 0 -> r = 0).
  Proof.
    intros I N. unfold buffer_malloc. destruct (Z.ltb_spec 0 n).
    - destruct (pool_get_ok sizes SO s live frees n (fail s) a I ltac:(lia)) as (s' & r & frees' & E & _ & I' & F & Z & _).
      exists s', r, frees'. split; [exact E|]. split; [exact I'|]. split; [exact F|]. split; [exact Z|]. lia.
    - exists s, 0, frees. split; [reflexivity|]. split; [exact I|]. split; [apply frame_refl|]. auto.
  Qed.

  (** diminuto_buffer_free. *)
  Lemma bfree_ok s live frees p : Inv sizes s live frees -> p = 0 \/ (exists n, In (p, n) live) ->
    exists s' frees', buffer_free sizes s p = Some s' /\ Inv sizes s' (forget live p) frees' /\
      frame (mem s) (mem s') (forget live p).
  Proof.
    intros I H. unfold buffer_free. destruct (Z.eqb_spec p 0) as [->|NE].
    - exists s, frees. rewrite (forget_zero s live frees I). split; [reflexivity|]. split; [exact I|apply frame_refl].
    - destruct H as [H|(n & J)]; [contradiction|].
      destruct (pool_put_ok sizes SO s live frees p n I J) as (s' & frees' & E & _ & I' & F & _). eauto.
  Qed.

  (** A string put into a live buffer. *)
  Lemma put_string_ok s live frees p n i l : Inv sizes s live frees -> In (p, n) live -> 0 <= i ->
    i + Z.of_nat (length l) <= n ->
    exists s', put_string s (p + i) l = Some s' /\ Inv sizes s' live frees /\ frame (mem s) (mem s') (forget live p) /\
      heap s' = heap s /\
      (forall x, mem s' x = if (p + i <=? x) && (x <? p + i + Z.of_nat (length l)) then nth (Z.to_nat (x - (p + i))) l 0 else mem s x).
  Proof.
    intros I J I0 L. unfold put_string.
    destruct (live_pos s live frees p n I J) as (A1 & A2 & A3 & A4 & A5).
    rewrite (live_access s live frees p n i _ I J I0) by lia.
    eexists. split; [reflexivity|].
    destruct (inv_write sizes SO s live frees p n (fun x =>
      if (p + i <=? x) && (x <? p + i + Z.of_nat (length l)) then nth (Z.to_nat (x - (p + i))) l 0 else mem s x) I J) as (I' & F).
    { intros x X. destruct (Z.leb_spec (p + i) x), (Z.ltb_spec x (p + i + Z.of_nat (length l))); cbn; try reflexivity; lia. }
    split; [exact I'|]. split; [exact F|]. split; reflexivity.
  Qed.

  (** What a call preserves and does. *)
  Definition outcome (s : st) (live : buffers) (o : op) (s' : st) (r : Z) : Prop :=
    (exists frees', Inv sizes s' (after live o r) frees') /\ frame (mem s) (mem s') (forget live (argument o)).

  Lemma after_gained_nodup s live frees r n : Inv sizes s (gained live r n) frees -> r <> 0 -> forall k, ~ In (r, k) live.
  Proof.
    intros I R k J. unfold gained in I. destruct (Z.eqb_spec r 0); [contradiction|].
    pose proof (live_nodup _ _ _ _ (I_heap _ _ _ _ I) (I_good _ _ _ _ I)) as N. cbn in N. apply NoDup_cons_iff in N as (N & _).
    apply N. apply in_map_iff. exists (r, k). auto.
  Qed.

  (** diminuto_buffer_realloc. *)
  Lemma realloc_ok s live frees p n a : Inv sizes s live frees -> permitted live (Realloc p n a) ->
    exists s' r, buffer_realloc sizes s p n a = Some (s', r) /\ outcome s live (Realloc p n a) s' r /\
      (forall k, In (p, k) live -> r <> 0 -> forall i, 0 <= i < Z.min k n -> mem s' (r + i) = mem s (p + i)) /\
      (forall k, In (p, k) live -> 0 < n -> class sizes k = class sizes n -> r = p).
  Proof.
    intros I (H & N). unfold outcome. cbn [after argument].
    unfold buffer_realloc. destruct (Z.eqb_spec p 0) as [->|NE].
    { destruct (malloc_ok s live frees n a I N) as (s' & r & frees' & E & I' & F & _). exists s', r.
      rewrite (forget_zero s live frees I). split; [exact E|].
      split; [split; [eauto|exact F]|].
      split; intros k J; exfalso; destruct (live_pos s live frees 0 k I J); lia. }
    destruct H as [H|(k & J)]; [contradiction|].
    assert (K : forall k', In (p, k') live -> k' = k).
    { intros k' J'. pose proof (live_nodup _ _ _ _ (I_heap _ _ _ _ I) (I_good _ _ _ _ I)) as ND.
      pose proof (forget_perm live p k ND J) as P. apply (Permutation_in _ P) in J'. destruct J' as [J'|J']; [congruence|].
      apply forget_in in J'. tauto. }
    destruct (Z.eqb_spec n 0) as [->|Nn].
    { destruct (bfree_ok s live frees p I (or_intror (ex_intro _ k J))) as (s' & frees' & E & I' & F). rewrite E. cbn [bind].
      exists s', 0. split; [reflexivity|]. split; [split; [eauto|exact F]|]. split; [intros; lia|intros; lia]. }
    destruct (live_pos s live frees p k I J) as (A1 & A2 & A3 & A4 & A5).
    destruct (I_live _ _ _ _ I p k J) as (Nk & R). assert (S' := SO). destruct S' as (S1 & S2).
    unfold load64, HEADER. rewrite (good_header _ _ _ (I_good _ _ _ _ I) A5), R. cbn [bind].
    assert (Ef : effective sizes (hdr sizes k) = class sizes k + 8).
    { unfold effective. destruct (hash_spec sizes k S1 Nk) as (_ & _ & _ & Ck & _).
      destruct (hdr_spec sizes k S1 S2 Nk) as (H1 & [(H2 & H3 & H4 & H5)|(H2 & H3)]).
      - destruct (Z.ltb_spec (hdr sizes k) (Z.of_nat (length sizes))); [|lia].
        rewrite (nth_error_nth _ _ 0 H3). unfold u64, HEADER, LIMIT in *. apply Z.mod_small. change (2 ^ 64) with 18446744073709551616 in *. lia.
      - destruct (Z.ltb_spec (hdr sizes k) (Z.of_nat (length sizes))); [lia|]. exact H2. }
    rewrite Ef. destruct (hash_spec sizes n S1 ltac:(lia)) as (item & Eh & B1 & B2 & _). rewrite Eh. cbn [snd].
    destruct (Z.eqb_spec (class sizes k + 8) (class sizes n + 8)) as [Ec|Ec].
    - assert (Ec' : class sizes n = class sizes k) by lia. clear Ec.
      exists s, p. split; [reflexivity|]. split; [split; [|apply frame_refl]|].
      + exists frees. unfold gained. destruct (Z.eqb_spec p 0); [contradiction|].
        destruct I as [L C Hp G V]. constructor; auto.
        * rewrite Hp, (lblocks_forget sizes SO s live frees p k Hp G J). cbn. rewrite Ec'. reflexivity.
        * intros q j [E|Q]; [|apply forget_in in Q as (Q & _); auto]. injection E as <- <-. split; [lia|].
          rewrite R. apply (hdr_same_class sizes k n (proj1 S1)). lia.
      + split; [reflexivity|]. reflexivity.
    - destruct (malloc_ok s live frees n a I N) as (s1 & r & frees1 & E1 & I1 & F1 & Z1 & _). rewrite E1. cbn [bind].
      destruct (Z.eqb_spec r 0) as [->|Nr].
      + cbn [bind]. rewrite (Z1 eq_refl) in *.
        destruct (bfree_ok s live frees p I (or_intror (ex_intro _ k J))) as (s' & frees' & E & I' & F). rewrite E. cbn [bind].
        exists s', 0. split; [reflexivity|]. split; [split; [eauto|exact F]|]. split; [congruence|].
        intros k' J' _ Ck. rewrite (K k' J') in Ck. lia.
      + pose proof (after_gained_nodup s1 live frees1 r n I1 Nr) as Nd.
        unfold gained in I1. destruct (Z.eqb_spec r 0); [contradiction|].
        destruct (hash_spec sizes k S1 Nk) as (_ & _ & _ & Ck & _).
        replace (u64 (class sizes k + 8 - 8)) with (class sizes k)
          by (unfold u64, LIMIT in *; symmetry; replace (class sizes k + 8 - 8) with (class sizes k) by lia;
              apply Z.mod_small; change (2 ^ 64) with 18446744073709551616 in *; lia).
        set (len := if n <? class sizes k then n else class sizes k).
        assert (Ln : 0 <= len <= n /\ len <= class sizes k /\ Z.min k n <= len) by (unfold len; destruct (Z.ltb_spec n (class sizes k)); lia).
        assert (Ar : accessible (heap s1) r len = true).
        { replace r with (r + 0) by lia. apply (live_access s1 _ frees1 r n 0 len I1); [left; reflexivity|lia|lia]. }
        assert (Ap : accessible (heap s1) p len = true).
        { replace p with (p + 0) by lia. apply (live_access s1 _ frees1 p k 0 len I1); [right; exact J|lia|lia]. }
        unfold memcpy. rewrite Ar, Ap. cbn [andb bind].
        set (m2 := fun x => if (r <=? x) && (x <? r + len) then mem s1 (x - r + p) else mem s1 x).
        destruct (inv_write sizes SO s1 _ frees1 r n m2 I1 (or_introl eq_refl)) as (I2 & F2).
        { intros x X. unfold m2. destruct (Z.leb_spec r x), (Z.ltb_spec x (r + len)); cbn; try reflexivity; lia. }
        destruct (bfree_ok (set_mem s1 m2) ((r, n) :: live) frees1 p I2 (or_intror (ex_intro _ k (or_intror J))))
          as (s' & frees' & E & I' & F). rewrite E. cbn [bind]. exists s', r. split; [reflexivity|].
        assert (Er : r <> p) by (intros ->; exact (Nd k J)).
        assert (Ef2 : forget ((r, n) :: live) p = (r, n) :: forget live p)
          by (unfold forget; cbn [filter fst]; destruct (Z.eqb_spec r p); [contradiction|reflexivity]).
        rewrite Ef2 in I', F.
        assert (Frl : forget ((r, n) :: live) r = live).
        { unfold forget. cbn [filter fst]. rewrite Z.eqb_refl. cbn. apply (forget_none live r Nd). }
        rewrite Frl in F2.
        split; [split|split].
        * exists frees'. unfold gained. destruct (Z.eqb_spec r 0); [contradiction|exact I'].
        * eapply frame_trans; [eapply frame_sub; [|exact F1]|eapply frame_trans; [eapply frame_sub; [|exact F2]|eapply frame_sub; [|exact F]]].
          -- intros (q & j) Q. apply forget_in in Q. tauto.
          -- intros (q & j) Q. apply forget_in in Q. tauto.
          -- intros x Q. right. exact Q.
        * intros k' J' _ i Hi. rewrite (K k' J') in Hi.
          rewrite (F r n (r + i) (or_introl eq_refl)) by lia. cbn [set_mem mem]. unfold m2.
          destruct (Z.leb_spec r (r + i)); [|lia]. destruct (Z.ltb_spec (r + i) (r + len)); [|lia]. cbn [andb].
          replace (r + i - r + p) with (p + i) by lia. apply (F1 p k (p + i) J). lia.
        * intros k' J' _ Ck'. rewrite (K k' J') in Ck'. lia.
  Qed.

  (** diminuto_buffer_calloc, diminuto_buffer_strdup, diminuto_buffer_strndup. *)
  Lemma calloc_ok s live frees k n a : Inv sizes s live frees -> permitted live (Calloc k n a) ->
    exists s' r, buffer_calloc sizes s k n a = Some (s', r) /\ outcome s live (Calloc k n a) s' r /\
      (r <> 0 -> forall i, 0 <= i < k * n -> mem s' (r + i) = 0).
  Proof.
    intros I (H1 & H2 & H3). unfold outcome. cbn [after argument]. rewrite (forget_zero s live frees I).
    unfold buffer_calloc. assert (0 <= k * n) by (apply Z.mul_nonneg_nonneg; assumption).
    replace (u64 (k * n)) with (k * n)
      by (unfold u64, LIMIT in *; symmetry; apply Z.mod_small; change (2 ^ 64) with 18446744073709551616 in *; lia).
    destruct (malloc_ok s live frees (k * n) a I ltac:(lia)) as (s1 & r & frees1 & E1 & I1 & F1 & Z1 & _). rewrite E1. cbn [bind].
    destruct (Z.eqb_spec r 0) as [->|Nr].
    - exists s1, 0. split; [reflexivity|]. split; [split; [eauto|exact F1]|]. congruence.
    - pose proof (after_gained_nodup s1 live frees1 r (k * n) I1 Nr) as Nd.
      unfold gained in *. destruct (Z.eqb_spec r 0); [contradiction|]. unfold memzero.
      destruct (live_pos s1 _ frees1 r (k * n) I1 (or_introl eq_refl)) as (A1 & A2 & A3 & A4 & A5).
      assert (Ar : accessible (heap s1) r (k * n) = true).
      { replace r with (r + 0) by lia. apply (live_access s1 _ frees1 r (k * n) 0 _ I1); [left; reflexivity|lia|lia]. }
      rewrite Ar. cbn [bind]. eexists. exists r. split; [reflexivity|].
      destruct (inv_write sizes SO s1 _ frees1 r (k * n) (fun x => if (r <=? x) && (x <? r + k * n) then 0 else mem s1 x) I1 (or_introl eq_refl)) as (I2 & F2).
      { intros x X. destruct (Z.leb_spec r x), (Z.ltb_spec x (r + k * n)); cbn; try reflexivity; lia. }
      assert (Frl : forget ((r, k * n) :: live) r = live).
      { unfold forget. cbn [filter fst]. rewrite Z.eqb_refl. cbn. apply (forget_none live r Nd). }
      rewrite Frl in F2. split; [split; [exists frees1; destruct (Z.eqb_spec r 0); [contradiction|exact I2]|exact (frame_trans _ _ _ _ F1 F2)]|].
      intros _ i Hi. cbn. destruct (Z.leb_spec r (r + i)); [|lia]. destruct (Z.ltb_spec (r + i) (r + k * n)); [reflexivity|lia].
  Qed.

  Lemma strdup_ok s live frees l a : Inv sizes s live frees -> permitted live (Strdup l a) ->
    exists s' r, buffer_strdup sizes s l a = Some (s', r) /\ outcome s live (Strdup l a) s' r /\
      (r <> 0 -> contains s' r (l ++ [0])).
  Proof.
    intros I H. cbn [permitted] in H. unfold outcome. cbn [after argument]. rewrite (forget_zero s live frees I). unfold buffer_strdup.
    replace (u64 (Z.of_nat (length l) + 1)) with (Z.of_nat (length l) + 1)
      by (unfold u64, LIMIT in *; symmetry; apply Z.mod_small; change (2 ^ 64) with 18446744073709551616 in *; lia).
    destruct (malloc_ok s live frees (Z.of_nat (length l) + 1) a I ltac:(lia)) as (s1 & r & frees1 & E1 & I1 & F1 & Z1 & _). rewrite E1. cbn [bind].
    destruct (Z.eqb_spec r 0) as [->|Nr].
    - exists s1, 0. split; [reflexivity|]. split; [split; [eauto|exact F1]|]. congruence.
    - pose proof (after_gained_nodup s1 live frees1 r _ I1 Nr) as Nd.
      unfold gained in *. destruct (Z.eqb_spec r 0); [contradiction|].
      destruct (put_string_ok s1 _ frees1 r (Z.of_nat (length l) + 1) 0 (l ++ [0]) I1 (or_introl eq_refl)) as (s2 & E2 & I2 & F2 & _ & M2);
        [lia|rewrite app_length; cbn [length]; lia|].
      rewrite Z.add_0_r in *. rewrite E2. cbn [bind]. exists s2, r. split; [reflexivity|].
      assert (Frl : forget ((r, Z.of_nat (length l) + 1) :: live) r = live).
      { unfold forget. cbn [filter fst]. rewrite Z.eqb_refl. cbn. apply (forget_none live r Nd). }
      rewrite Frl in F2. split; [split; [exists frees1; destruct (Z.eqb_spec r 0); [contradiction|exact I2]|exact (frame_trans _ _ _ _ F1 F2)]|].
      intros _ i Hi. rewrite M2. destruct (Z.leb_spec r (r + Z.of_nat i)); [|lia].
      destruct (Z.ltb_spec (r + Z.of_nat i) (r + Z.of_nat (length (l ++ [0])))); [|lia]. cbn [andb]. f_equal. lia.
  Qed.

  Lemma strndup_ok s live frees l n a : Inv sizes s live frees -> permitted live (Strndup l n a) ->
    exists s' r, buffer_strndup sizes s l n a = Some (s', r) /\ outcome s live (Strndup l n a) s' r /\
      (r <> 0 -> contains s' r (firstn n l ++ [0])).
  Proof.
    intros I H. cbn [permitted] in H. unfold outcome. cbn [after argument]. rewrite (forget_zero s live frees I). unfold buffer_strndup.
    set (k := Nat.min (length l) n) in *.
    assert (Ek : firstn k l = firstn n l).
    { unfold k. destruct (Nat.le_ge_cases (length l) n) as [X|X]; [rewrite Nat.min_l by exact X; rewrite !firstn_all2 by lia; reflexivity|
        rewrite Nat.min_r by exact X; reflexivity]. }
    assert (Lk : length (firstn k l) = k) by (rewrite firstn_length; unfold k; lia).
    replace (u64 (Z.of_nat k + 1)) with (Z.of_nat k + 1)
      by (unfold u64, LIMIT in *; symmetry; apply Z.mod_small; change (2 ^ 64) with 18446744073709551616 in *; lia).
    destruct (malloc_ok s live frees (Z.of_nat k + 1) a I ltac:(lia)) as (s1 & r & frees1 & E1 & I1 & F1 & Z1 & _). rewrite E1. cbn [bind].
    destruct (Z.eqb_spec r 0) as [->|Nr].
    - exists s1, 0. split; [reflexivity|]. split; [split; [eauto|exact F1]|]. congruence.
    - pose proof (after_gained_nodup s1 live frees1 r _ I1 Nr) as Nd.
      unfold gained in *. destruct (Z.eqb_spec r 0); [contradiction|].
      destruct (put_string_ok s1 _ frees1 r (Z.of_nat k + 1) 0 (firstn k l) I1 (or_introl eq_refl)) as (s2 & E2 & I2 & F2 & _ & M2); [lia|rewrite Lk; lia|].
      rewrite Z.add_0_r in *. rewrite E2. cbn [bind].
      destruct (put_string_ok s2 _ frees1 r (Z.of_nat k + 1) (Z.of_nat k) [0] I2 (or_introl eq_refl)) as (s3 & E3 & I3 & F3 & _ & M3); [lia|cbn [length]; lia|].
      rewrite E3. cbn [bind]. exists s3, r. split; [reflexivity|].
      assert (Frl : forget ((r, Z.of_nat k + 1) :: live) r = live).
      { unfold forget. cbn [filter fst]. rewrite Z.eqb_refl. cbn. apply (forget_none live r Nd). }
      rewrite Frl in F2, F3. split; [split; [exists frees1; destruct (Z.eqb_spec r 0); [contradiction|exact I3]|exact (frame_trans _ _ _ _ F1 (frame_trans _ _ _ _ F2 F3))]|].
      intros _ i Hi. rewrite <- Ek in *. rewrite app_length, Lk in Hi. cbn [length] in Hi. rewrite M3. cbn [length].
      destruct (Z.leb_spec (r + Z.of_nat k) (r + Z.of_nat i)) as [G|G].
      + assert (i = k) by lia. subst i. destruct (Z.ltb_spec (r + Z.of_nat k) (r + Z.of_nat k + Z.of_nat 1)); [|lia]. cbn [andb].
        rewrite app_nth2 by lia. rewrite Lk, Nat.sub_diag, Z.sub_diag. reflexivity.
      + cbn [andb]. rewrite M2, Lk. destruct (Z.leb_spec r (r + Z.of_nat i)); [|lia].
        destruct (Z.ltb_spec (r + Z.of_nat i) (r + Z.of_nat k)); [|lia]. cbn [andb]. rewrite app_nth1 by lia. f_equal. lia.
  Qed.

  (** diminuto_buffer_pool_prealloc. *)
  Lemma prealloc_loop_ok item z a nmemb : nth_error sizes item = Some z -> 0 <= z < LIMIT -> forall s live frees t i, Inv sizes s live frees ->
    exists s' r frees' k, prealloc_loop s nmemb item (z + 8) t a i = Some (s', r) /\ Inv sizes s' live frees' /\
      frame (mem s) (mem s') live /\ (k <= nmemb)%nat /\ total (heap s') = total (heap s) + Z.of_nat k * (z + 8) /\
      u64 r = u64 (t + Z.of_nat k * (z + 8)) /\ (is_u64 t -> is_u64 r) /\ (k = nmemb \/ refused s' (a (i + k)%nat) (z + 8)).
  Proof.
    intros Es Hz. induction nmemb as [|nmemb IH]; intros s live frees t i I; cbn [prealloc_loop].
    - exists s, t, frees, 0%nat. split; [reflexivity|]. split; [exact I|]. split; [apply frame_refl|]. split; [lia|]. split; [lia|]. split; [f_equal; lia|auto].
    - unfold buffer_pool_malloc. destruct (malloc s (z + 8) (a i)) as (s1 & b) eqn:EM.
      destruct (pre_of_malloc sizes SO s live frees (z + 8) (a i) s1 b I ltac:(lia) EM) as [(-> & ->)|(Nb & Hh & Hf & P & F)].
      + exists s, t, frees, 0%nat. split; [reflexivity|]. split; [exact I|]. split; [apply frame_refl|]. split; [lia|]. split; [lia|]. split; [f_equal; lia|].
        split; [auto|]. right. rewrite Nat.add_0_r. unfold refused, malloc in *. destruct (a i) as [(b & c)|]; [|exact Logic.I].
        destruct (possible (heap s) b (z + 8)) eqn:Ps; [|reflexivity]. injection EM as _ Eb. subst b.
        unfold possible in Ps. rewrite !andb_true_iff in Ps. destruct Ps as (((Ps & _) & _) & _). apply Z.ltb_lt in Ps. lia.
      + destruct (Z.eqb_spec b 0); [contradiction|].
        destruct (nth_error frees item) as [l|] eqn:Ef.
        2:{ apply nth_error_None in Ef. assert (item < length sizes)%nat by (apply nth_error_Some; congruence).
            rewrite (I_len _ _ _ _ I) in Ef. lia. }
        destruct (put_ok sizes SO s1 live frees b item z l Es Ef P) as (s2 & E2 & _ & Hh2 & I2 & F2). rewrite E2. cbn [bind].
        destruct (IH s2 live _ (u64 (t + (z + 8))) (S i) I2) as (s' & r & frees' & k & E & I' & F' & Lk & T & U & UU & RR).
        exists s', r, frees', (S k). split; [exact E|]. split; [exact I'|].
        split; [exact (frame_trans _ _ _ _ F (frame_trans _ _ _ _ F2 F'))|]. split; [lia|]. rewrite T, Hh2, Hh.
        split; [cbn [total fold_right snd]; rewrite Nat2Z.inj_succ; unfold total; lia|].
        split; [rewrite U; unfold u64; rewrite Zplus_mod_idemp_l; f_equal; rewrite Nat2Z.inj_succ; lia|].
        split; [intros _; apply UU; unfold is_u64, u64; apply Z.mod_pos_bound; lia|].
        destruct RR as [->|RR]; [auto|]. right. replace (i + S k)%nat with (S i + k)%nat by lia. exact RR.
  Qed.

  Lemma unpooled n item : hash sizes n = (item, class sizes n + 8) -> item = length sizes -> class sizes n = n ->
    ~ In (class sizes n) sizes.
  Proof.
    intros E L C Q. rewrite C in Q. unfold hash in E. destruct (hash_loop sizes n 0) as (it & oz) eqn:HL. injection E as E _.
    destruct (hash_loop_spec n sizes 0) as (it' & HL' & Y). rewrite HL in HL'. injection HL' as <- Ez. clear Ez HL.
    destruct (find (fun z => n <=? z) sizes) as [z|] eqn:F.
    - destruct Y as (Y1 & Y2 & _). assert (it - 0 < length sizes)%nat by (apply nth_error_Some; congruence). lia.
    - apply (find_none _ _ F) in Q. apply Z.leb_gt in Q. lia.
  Qed.

  Lemma prealloc_ok s live frees nmemb n a : Inv sizes s live frees -> 0 <= n < LIMIT ->
    exists s' r frees' k, pool_prealloc sizes s nmemb n a = Some (s', r) /\ Inv sizes s' live frees' /\
      frame (mem s) (mem s') live /\ (k <= nmemb)%nat /\
      total (heap s') = total (heap s) + Z.of_nat k * (class sizes n + 8) /\ r = u64 (Z.of_nat k * (class sizes n + 8)) /\
      (In (class sizes n) sizes -> 0 < n -> k = nmemb \/ refused s' (a k) (class sizes n + 8)).
  Proof.
    intros I N. unfold pool_prealloc.
    assert (Z0 : (In (class sizes n) sizes -> 0 < n -> 0%nat = nmemb) -> exists s' r frees' k, Some (s, 0) = Some (s', r) /\ Inv sizes s' live frees' /\
      frame (mem s) (mem s') live /\ (k <= nmemb)%nat /\
      total (heap s') = total (heap s) + Z.of_nat k * (class sizes n + 8) /\ r = u64 (Z.of_nat k * (class sizes n + 8)) /\
      (In (class sizes n) sizes -> 0 < n -> k = nmemb \/ refused s' (a k) (class sizes n + 8))).
    { intros Q. exists s, 0, frees, 0%nat. split; [reflexivity|]. split; [exact I|]. split; [apply frame_refl|]. split; [lia|]. split; [lia|].
      split; [reflexivity|]. intros Q1 Q2. left. exact (Q Q1 Q2). }
    destruct (Z.eqb_spec n 0); [apply Z0; lia|]. destruct (Nat.eqb_spec nmemb 0); [apply Z0; auto|].
    destruct (hash_spec sizes n (proj1 SO) ltac:(lia)) as (item & E & B1 & B2 & X). rewrite E. unfold isexternal.
    destruct X as [(Li & Es)|(Li & Ec & Lc)].
    - destruct (Z.leb_spec (Z.of_nat (length sizes)) (Z.of_nat item)); [lia|].
      destruct (prealloc_loop_ok item _ a nmemb Es ltac:(lia) s live frees 0 0%nat I) as (s' & r & frees' & k & E' & I' & F & Lk & T & U & UU & RR).
      exists s', r, frees', k. split; [exact E'|]. split; [exact I'|]. split; [exact F|]. split; [exact Lk|]. split; [exact T|].
      split; [rewrite Z.add_0_l in U; rewrite <- U; unfold u64; symmetry; apply Z.mod_small; apply UU; unfold is_u64; lia|]. intros _ _. exact RR.
    - destruct (Z.leb_spec (Z.of_nat (length sizes)) (Z.of_nat item)); [|lia]. apply Z0. intros Q _. exfalso.
      exact (unpooled n item E Li Ec Q).
  Qed.

  (** diminuto_buffer_pool_free. *)
  Lemma fblocks_len sz : forall frees i l, (i < length sz)%nat -> nth_error frees i = Some l -> (length l <= length (fblocks sz frees))%nat.
  Proof.
    induction sz as [|z sz IH]; intros frees i l Li E; [cbn in Li; lia|].
    destruct frees as [|k frees]; [destruct i; discriminate|]. cbn [fblocks]. rewrite app_length, map_length.
    destruct i as [|i]; cbn in E, Li; [injection E as <-; lia|]. pose proof (IH frees i l ltac:(lia) E). lia.
  Qed.

  Lemma chain_short s live frees i l : Inv sizes s live frees -> nth_error frees i = Some l -> (length l <= length (heap s))%nat.
  Proof.
    intros I E. rewrite (Permutation_length (I_heap _ _ _ _ I)), app_length.
    assert (i < length frees)%nat by (apply nth_error_Some; congruence). rewrite (I_len _ _ _ _ I) in H.
    pose proof (fblocks_len sizes frees i l H E). lia.
  Qed.

  Lemma drain_ok live i l : forall fuel s frees, Inv sizes s live frees -> nth_error frees i = Some l -> (length l < fuel)%nat ->
    exists s', drain fuel s i = Some s' /\ Inv sizes s' live (upd frees i []) /\ mem s' = mem s /\ (length (heap s') <= length (heap s))%nat.
  Proof.
    induction l as [|b l IH]; intros fuel s frees I E L; (destruct fuel as [|fuel]; [cbn in L; lia|]); cbn [drain].
    - destruct (Forall2_nth2 _ _ _ (I_chain _ _ _ _ I) i) as (h & l' & Eh & Ef & Ch); [apply nth_error_Some; congruence|].
      rewrite E in Ef. injection Ef as <-. cbn in Ch. subst h. unfold buffer_pool_get. rewrite Eh. cbn.
      exists s. split; [reflexivity|]. rewrite (upd_nth_same frees i _ E). auto.
    - assert (Li : (i < length sizes)%nat) by (rewrite <- (I_len _ _ _ _ I); apply nth_error_Some; congruence).
      destruct (nth_error sizes i) as [z|] eqn:Es; [|apply nth_error_None in Es; lia].
      destruct (pre_of_get sizes SO s live frees i z b l I Es E) as (s1 & E1 & Nb & H1 & M1 & F1 & P). rewrite E1. cbn [bind].
      destruct (Z.eqb_spec b 0); [contradiction|].
      destruct (free_ok sizes SO s1 live _ b _ P) as (s2 & E2 & _ & M2 & _ & I2 & P2). rewrite E2. cbn [bind].
      destruct (IH fuel s2 _ I2) as (s' & E' & I' & M' & L').
      + apply upd_nth. rewrite (I_len _ _ _ _ I). exact Li.
      + cbn in L. lia.
      + exists s'. split; [exact E'|]. rewrite upd_upd in I'. split; [exact I'|]. split; [congruence|].
        apply Permutation_length in P2. cbn in P2. rewrite H1 in P2. lia.
  Qed.

  Lemma nth_upd_other {A} (l : list A) : forall i j x, i <> j -> nth_error (upd l i x) j = nth_error l j.
  Proof. induction l as [|y l IH]; intros [|i] [|j] x NE; cbn; try reflexivity; try congruence. apply IH. congruence. Qed.

  Lemma drain_from_ok live fuel count : forall i s frees, Inv sizes s live frees -> (i + count = length sizes)%nat ->
    (length (heap s) < fuel)%nat -> (forall j l, (j < i)%nat -> nth_error frees j = Some l -> l = []) ->
    exists s' frees', drain_from fuel count s i = Some s' /\ Inv sizes s' live frees' /\ mem s' = mem s /\
      (forall j l, nth_error frees' j = Some l -> l = []).
  Proof.
    induction count as [|count IH]; intros i s frees I L F Q; cbn [drain_from].
    - exists s, frees. split; [reflexivity|]. split; [exact I|]. split; [reflexivity|]. intros j l E. apply (Q j l); [|exact E].
      assert (j < length frees)%nat by (apply nth_error_Some; congruence). rewrite (I_len _ _ _ _ I) in H. lia.
    - destruct (nth_error frees i) as [l|] eqn:E; [|apply nth_error_None in E; rewrite (I_len _ _ _ _ I) in E; lia].
      pose proof (chain_short s live frees i l I E).
      destruct (drain_ok live i l fuel s frees I E ltac:(lia)) as (s1 & E1 & I1 & M1 & L1). rewrite E1. cbn [bind].
      destruct (IH (S i) s1 _ I1) as (s' & frees' & E' & I' & M' & Q'); [lia|lia| |].
      + intros j k Lj Ej. destruct (Nat.eq_dec i j) as [<-|NE].
        * rewrite upd_nth in Ej; [congruence|]. rewrite (I_len _ _ _ _ I). lia.
        * rewrite nth_upd_other in Ej by exact NE. apply (Q j k); [lia|exact Ej].
      + exists s', frees'. split; [exact E'|]. split; [exact I'|]. split; [congruence|exact Q'].
  Qed.

  Lemma fblocks_nil sz : forall frees, (forall j l, nth_error frees j = Some l -> l = []) -> fblocks sz frees = [].
  Proof.
    induction sz as [|z sz IH]; intros frees Q; [reflexivity|]. destruct frees as [|l frees]; [reflexivity|]. cbn [fblocks].
    rewrite (Q 0%nat l eq_refl). cbn. apply IH. intros j k E. apply (Q (S j) k E).
  Qed.

  Lemma fini_ok s live frees : Inv sizes s live frees ->
    exists s' frees', pool_free sizes s = Some s' /\ Inv sizes s' live frees' /\ mem s' = mem s /\
      Permutation (heap s') (lblocks sizes live).
  Proof.
    intros I. unfold pool_free. destruct (drain_from_ok live (S (length (heap s))) (length sizes) 0 s frees I) as (s' & frees' & E & I' & M & Q); [lia|lia|lia|].
    exists s', frees'. split; [exact E|]. split; [exact I'|]. split; [exact M|].
    rewrite (I_heap _ _ _ _ I'), (fblocks_nil sizes frees' Q), app_nil_r. reflexivity.
  Qed.

  (** diminuto_buffer_pool_log. *)
  Lemma count_free_ok s l : forall fuel h, chain (mem s) h l -> (length l < fuel)%nat ->
    (forall b, In b l -> 0 < b /\ accessible (heap s) b 8 = true) -> count_free fuel s h = Some (Z.of_nat (length l)).
  Proof.
    induction l as [|b l IH]; intros fuel h C L A; (destruct fuel as [|fuel]; [cbn in L; lia|]); cbn [count_free].
    - cbn in C. subst h. reflexivity.
    - destruct C as (-> & C). destruct (A b (or_introl eq_refl)) as (A1 & A2). destruct (Z.eqb_spec b 0); [lia|].
      unfold load64. rewrite A2. cbn [bind]. rewrite (IH fuel _ C); [|cbn in L; lia|intros; apply A; right; assumption].
      cbn [bind length]. f_equal. lia.
  Qed.

  Lemma total_app l k : total (l ++ k) = total l + total k.
  Proof. induction l as [|x l IH]; cbn [app total fold_right]; [reflexivity|]. fold (total (l ++ k)) (total l). lia. Qed.

  Lemma total_perm l k : Permutation l k -> total l = total k.
  Proof. unfold total. induction 1; cbn [fold_right] in *; lia. Qed.

  Lemma total_const l z : total (map (fun b : Z => (b, z)) l) = Z.of_nat (length l) * z.
  Proof. induction l as [|b l IH]; [reflexivity|]. unfold total in *. cbn [map fold_right snd length]. rewrite Nat2Z.inj_succ. lia. Qed.

  Lemma log_loop_ok s sz : forall hs frees t, Forall (fun z => 0 <= z < LIMIT) sz -> length frees = length sz ->
    Forall2 (chain (mem s)) hs frees ->
    (forall b z, In (b, z) (fblocks sz frees) -> 0 < b /\ accessible (heap s) b 8 = true) ->
    (forall l, In l frees -> length l <= length (heap s))%nat -> is_u64 t ->
    exists r, log_loop s sz hs t = Some r /\ is_u64 r /\ r = u64 (t + total (fblocks sz frees)).
  Proof.
    induction sz as [|z sz IH]; intros hs frees t Fz L C A B T; cbn [log_loop].
    - exists t. split; [reflexivity|]. split; [exact T|]. cbn. unfold u64, is_u64 in *. rewrite Z.add_0_r, Z.mod_small; lia.
    - destruct frees as [|l frees]; [discriminate|]. inversion C as [|h l' hs' frees' Ch C' E1 E2]; subst.
      apply Forall_cons_iff in Fz as (Hz & Fz). cbn [fblocks] in *.
      rewrite (count_free_ok s l _ _ Ch); [|pose proof (B l (or_introl eq_refl)); lia|].
      2:{ intros b I. apply (A b (z + 8)). apply in_or_app. left. apply in_map_iff. eauto. }
      cbn [bind]. replace (u64 (z + HEADER)) with (z + 8)
        by (unfold u64, HEADER, LIMIT in *; change (2 ^ 64) with 18446744073709551616 in *; symmetry; apply Z.mod_small; lia).
      destruct (IH hs' frees (u64 (t + u64 (Z.of_nat (length l) * (z + 8)))) Fz) as (r & E & U & V).
      + cbn in L. congruence.
      + exact C'.
      + intros b y I. apply (A b y). apply in_or_app. auto.
      + intros k I. apply B. right. exact I.
      + unfold is_u64, u64. apply Z.mod_pos_bound. lia.
      + exists r. split; [exact E|]. split; [exact U|]. rewrite V, total_app, total_const. unfold u64.
        rewrite Zplus_mod_idemp_l. rewrite <- Zplus_mod_idemp_l, Zplus_mod_idemp_r, Zplus_mod_idemp_l. f_equal. lia.
  Qed.

  Lemma log_ok s live frees : Inv sizes s live frees ->
    pool_log sizes s = Some (u64 (total (heap s) - total (lblocks sizes live))).
  Proof.
    intros I. unfold pool_log. destruct (log_loop_ok s sizes (heads s) frees 0) as (r & E & _ & V).
    - apply SO.
    - apply (I_len _ _ _ _ I).
    - apply (I_chain _ _ _ _ I).
    - intros b z J. assert (K : In (b, z) (heap s))
        by (apply (Permutation_in _ (Permutation_sym (I_heap _ _ _ _ I))); apply in_or_app; auto).
      split; [apply (I_good _ _ _ _ I) in K; tauto|exact (good_header _ _ _ (I_good _ _ _ _ I) K)].
    - intros l J. apply In_nth_error in J as (i & J). exact (chain_short s live frees i l I J).
    - unfold is_u64. lia.
    - rewrite E, V. f_equal. f_equal. rewrite (total_perm _ _ (I_heap _ _ _ _ I)), total_app. lia.
  Qed.

  (** Every permitted call is defined and keeps the invariant. *)
  Lemma step_ok s live frees o : Inv sizes s live frees -> permitted live o ->
    exists s' r, step sizes s o = Some (s', r) /\ outcome s live o s' r.
  Proof.
    intros I P. destruct o as [n a|p|p n a|k n a|l a|l n a|k n a| |b| |p i v]; cbn [step].
    - destruct (malloc_ok s live frees n a I P) as (s' & r & frees' & E & I' & F & _). exists s', r. split; [exact E|].
      split; [eauto|]. cbn. rewrite (forget_zero s live frees I). exact F.
    - destruct (bfree_ok s live frees p I P) as (s' & frees' & E & I' & F). rewrite E. cbn [bind]. exists s', 0. split; [reflexivity|].
      split; [eauto|exact F].
    - destruct (realloc_ok s live frees p n a I P) as (s' & r & E & O & _). eauto.
    - destruct (calloc_ok s live frees k n a I P) as (s' & r & E & O & _). eauto.
    - destruct (strdup_ok s live frees l a I P) as (s' & r & E & O & _). eauto.
    - destruct (strndup_ok s live frees l n a I P) as (s' & r & E & O & _). eauto.
    - destruct (prealloc_ok s live frees k n a I P) as (s' & r & frees' & j & E & I' & F & _). exists s', r. split; [exact E|].
      split; [cbn; eauto|]. cbn. rewrite (forget_zero s live frees I). exact F.
    - destruct (fini_ok s live frees I) as (s' & frees' & E & I' & M & _). rewrite E. cbn [bind]. exists s', 0. split; [reflexivity|].
      split; [cbn; eauto|]. rewrite M. apply frame_refl.
    - eexists. eexists. split; [reflexivity|]. split; [|apply frame_refl]. exists frees. destruct I as [L C H G V]. constructor; auto.
    - rewrite (log_ok s live frees I). cbn [bind]. eexists. eexists. split; [reflexivity|]. split; [exists frees; exact I|apply frame_refl].
    - destruct P as (n & J & B). destruct (put_string_ok s live frees p n i [v] I J) as (s' & E & I' & F & _ & _); [lia|cbn [length]; lia|].
      rewrite E. cbn [bind]. exists s', 0. split; [reflexivity|]. split; [cbn; eauto|exact F].
  Qed.

  Lemma init_inv m : Inv sizes (init sizes m) [] (repeat [] (length sizes)).
  Proof.
    constructor; cbn.
    - apply repeat_length.
    - induction (length sizes); cbn; constructor; [reflexivity|assumption].
    - rewrite fblocks_nil; [reflexivity|]. intros j l E. apply nth_error_In in E. apply repeat_spec in E. exact E.
    - split; [constructor|]. split; [intros b z []|intros b z b' z' []].
    - intros p n [].
  Qed.

  Lemma history_inv m h s live : history sizes (init sizes m) h s live -> exists frees, Inv sizes s live frees.
  Proof.
    induction 1 as [|h s live o s' r H (frees & I) P E]; [eexists; apply init_inv|].
    destruct (step_ok s live frees o I P) as (s2 & r2 & E2 & (I2 & _)). rewrite E in E2. injection E2 as <- <-. exact I2.
  Qed.
End Pool.
