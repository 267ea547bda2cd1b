(** Proofs about the buffer pool: consequences. *)

From Coq Require Import ZArith List Bool Lia Sorting.Sorted Sorting.Permutation.
From Verif Require Import CInt CUtil BufferModel BufferSpec BufferProofs BufferProofs2 BufferProofs3.
Import ListNotations.
Local Open Scope Z_scope.

Lemma sorted_short sizes : forall a, StronglySorted Z.lt sizes -> Forall (fun z => a <= z < LIMIT) sizes ->
  sizes = [] \/ Z.of_nat (length sizes) <= LIMIT - a.
Proof.
  induction sizes as [|z sizes IH]; intros a S F; [auto|]. right. apply StronglySorted_inv in S as (S & L).
  apply Forall_cons_iff in F as (Z1 & F). destruct (IH (z + 1) S) as [->|H].
  - rewrite Forall_forall in *. intros y I. specialize (L y I). specialize (F y I). lia.
  - change (Z.of_nat (length [z])) with 1. lia.
  - cbn [length]. lia.
Qed.

Lemma pool_sizes_ok sizes : pool_ok sizes -> sizes_ok sizes.
Proof.
  intros (S & F). split; [split; assumption|]. assert (L : LIMIT < 2 ^ 64) by reflexivity.
  destruct (sorted_short sizes 0 S F) as [->|H]; [reflexivity|]. clear - H L. generalize dependent LIMIT. intros. lia.
Qed.

(** The buffers an application has are apart and in blocks of their own. *)
Lemma live_apart sizes s live frees : sizes_ok sizes -> Inv sizes s live frees ->
  NoDup (map fst live) /\
  forall p n q k, In (p, n) live -> In (q, k) live -> p <> q -> apart (p - 8) (class sizes n + 8) (q - 8) (class sizes k + 8).
Proof.
  intros SO I. split; [exact (live_nodup _ _ _ _ (I_heap _ _ _ _ I) (I_good _ _ _ _ I))|].
  intros p n q k P Q NE. destruct (I_good _ _ _ _ I) as (_ & _ & G).
  destruct (live_pos sizes SO s live frees p n I P) as (_ & _ & _ & _ & B1).
  destruct (live_pos sizes SO s live frees q k I Q) as (_ & _ & _ & _ & B2).
  apply (G _ _ _ _ B1 B2). lia.
Qed.

Lemma in_use_heap sizes s live frees x : Inv sizes s live frees -> In x (in_use sizes live) -> In x (heap s).
Proof. intros I J. apply (Permutation_in _ (Permutation_sym (I_heap _ _ _ _ I))). apply in_or_app. auto. Qed.

(** What malloc returns comes from the free list of its class or from the heap. *)
Lemma malloc_origin sizes s live frees n a s' r : sizes_ok sizes -> Inv sizes s live frees -> 0 <= n < LIMIT ->
  buffer_malloc sizes s n a = Some (s', r) -> r <> 0 ->
  (forall k, ~ In (r, k) live) /\
  (heap s' = heap s /\ In (r - 8, class sizes n + 8) (heap s) \/ heap s' = (r - 8, class sizes n + 8) :: heap s).
Proof.
  intros SO I N E R. destruct (malloc_ok sizes SO s live frees n a I N) as (s1 & r1 & frees1 & E1 & I1 & _ & _ & N0).
  rewrite E in E1. injection E1 as <- <-.
  split; [exact (after_gained_nodup sizes SO s' live frees1 r n I1 R)|].
  unfold buffer_malloc in E. destruct (Z.ltb_spec 0 n); [|assert (n = 0) by lia; tauto].
  destruct (pool_get_ok sizes SO s live frees n (fail s) a I ltac:(lia)) as (s2 & r2 & frees2 & E2 & _ & I2 & _ & _ & H2).
  rewrite E in E2. injection E2 as <- <-. destruct H2 as [H2|[H2|H2]]; [contradiction| |right; exact H2].
  left. split; [exact H2|]. rewrite <- H2. unfold gained in I2. destruct (Z.eqb_spec r 0); [contradiction|].
  apply (in_use_heap sizes s' _ frees2 _ I2). left. reflexivity.
Qed.

Lemma malloc_succeeds sizes s live frees n b c : sizes_ok sizes -> Inv sizes s live frees -> 0 < n < LIMIT -> fail s = false ->
  possible (heap s) b (class sizes n + 8) = true ->
  exists s' r, buffer_malloc sizes s n (Some (b, c)) = Some (s', r) /\ r <> 0.
Proof.
  intros SO I N Fl P. assert (S' := SO). destruct S' as (S1 & S2). unfold buffer_malloc. destruct (Z.ltb_spec 0 n); [|lia].
  unfold pool_get. destruct (Z.eqb_spec n 0); [lia|]. destruct (hash_spec sizes n S1 ltac:(lia)) as (item & E & B1 & B2 & X). rewrite E.
  assert (M : exists s' r,
      (let* '(s1, buffer) := Some (buffer_pool_malloc s (class sizes n + 8) (fail s) (Some (b, c))) in
       if buffer =? 0 then Some (s1, 0) else buffer_pool_init sizes s1 buffer item (class sizes n + 8)) = Some (s', r) /\ r <> 0).
  { unfold buffer_pool_malloc. rewrite Fl. destruct (malloc s (class sizes n + 8) (Some (b, c))) as (s1 & b1) eqn:EM. cbn [bind].
    destruct (pre_of_malloc sizes SO s live frees (class sizes n + 8) _ s1 b1 I ltac:(lia) EM) as [(-> & ->)|(Nb & Hh & Hf & Pr & F)].
    - unfold malloc in EM. rewrite P in EM. injection EM as _ Eb. unfold possible in P. rewrite !andb_true_iff in P.
      destruct P as (((P & _) & _) & _). apply Z.ltb_lt in P. lia.
    - destruct (Z.eqb_spec b1 0); [contradiction|]. destruct (init_ok sizes SO s1 live frees b1 n N Pr) as (s' & E' & _).
      rewrite E in E'. cbn [fst snd] in E'. rewrite E'. exists s', (b1 + 8). split; [reflexivity|].
      destruct (pre_block _ SO _ _ _ _ _ Pr) as (_ & _ & Bb). lia. }
  unfold isexternal. destruct X as [(Li & Es)|(Li & Ec & Lc)].
  - destruct (Z.leb_spec (Z.of_nat (length sizes)) (Z.of_nat item)); [lia|].
    assert (Lf : (item < length frees)%nat) by (rewrite (I_len _ _ _ _ I); exact Li).
    destruct (Forall2_nth2 _ _ _ (I_chain _ _ _ _ I) item Lf) as (h & l & Eh & Ef & Ch). rewrite Eh. cbn [bind].
    destruct l as [|b1 l]; [cbn in Ch; subst h; exact M|].
    destruct (pre_of_get sizes SO s live frees item _ b1 l I Es Ef) as (s1 & E1 & Nb & H1 & M1 & F1 & Pr).
    destruct Ch as (-> & _). destruct (Z.eqb_spec b1 0); [contradiction|]. rewrite E1. cbn [bind].
    destruct (Z.eqb_spec b1 0); [contradiction|].
    destruct (init_ok sizes SO s1 live (upd frees item l) b1 n N Pr) as (s' & E' & _).
    rewrite E in E'. cbn [fst snd] in E'. rewrite E'. exists s', (b1 + 8). split; [reflexivity|].
    destruct (pre_block _ SO _ _ _ _ _ Pr) as (_ & _ & Bb). lia.
  - destruct (Z.leb_spec (Z.of_nat (length sizes)) (Z.of_nat item)); [exact M|lia].
Qed.

(** A block on a free list is what the next request of its class gets. *)
Lemma get_recycles sizes s live frees n a item b l : sizes_ok sizes -> Inv sizes s live frees -> 0 < n < LIMIT ->
  hash sizes n = (item, class sizes n + 8) -> nth_error sizes item = Some (class sizes n) ->
  nth_error frees item = Some (b :: l) ->
  exists s', buffer_malloc sizes s n a = Some (s', b + 8) /\ heap s' = heap s.
Proof.
  intros SO I N E Es Ef. unfold buffer_malloc. destruct (Z.ltb_spec 0 n); [|lia].
  unfold pool_get. destruct (Z.eqb_spec n 0); [lia|]. rewrite E. unfold isexternal.
  assert (Li : (item < length sizes)%nat) by (apply nth_error_Some; congruence).
  destruct (Z.leb_spec (Z.of_nat (length sizes)) (Z.of_nat item)); [lia|].
  assert (Lf : (item < length frees)%nat) by (rewrite (I_len _ _ _ _ I); exact Li).
  destruct (Forall2_nth2 _ _ _ (I_chain _ _ _ _ I) item Lf) as (h & l' & Eh & Ef' & Ch). rewrite Eh. cbn [bind].
  rewrite Ef in Ef'. injection Ef' as <-.
  destruct (pre_of_get sizes SO s live frees item _ b l I Es Ef) as (s1 & E1 & Nb & H1 & M1 & F1 & P).
  destruct Ch as (-> & _). destruct (Z.eqb_spec b 0); [contradiction|]. rewrite E1. cbn [bind].
  destruct (Z.eqb_spec b 0); [contradiction|].
  destruct (init_ok sizes SO s1 live (upd frees item l) b n N P) as (s' & E' & F' & H' & _).
  rewrite E in E'. cbn [fst snd] in E'. rewrite E'. exists s'. split; [reflexivity|congruence].
Qed.

Lemma recycles sizes s live frees p n m a : sizes_ok sizes -> Inv sizes s live frees -> In (p, n) live -> 0 < m < LIMIT ->
  class sizes m = class sizes n -> In (class sizes n) sizes ->
  exists s1 s2, buffer_free sizes s p = Some s1 /\ buffer_malloc sizes s1 m a = Some (s2, p) /\ heap s2 = heap s.
Proof.
  intros SO I J M C K. assert (S' := SO). destruct S' as (S1 & S2).
  destruct (live_pos sizes SO s live frees p n I J) as (A1 & _). destruct (I_live _ _ _ _ I p n J) as (N & _).
  unfold buffer_free. destruct (Z.eqb_spec p 0); [lia|].
  destruct (pool_put_ok sizes SO s live frees p n I J) as (s1 & frees1 & E1 & _ & I1 & _ & H). rewrite E1.
  destruct (hash_spec sizes n S1 N) as (item & E & B1 & B2 & X).
  pose proof (hash_same_class sizes m n (proj1 S1) C) as Eh. rewrite E in *. cbn [fst] in H.
  assert (Es : nth_error sizes item = Some (class sizes n)).
  { destruct X as [(_ & X)|(X1 & X2 & X3)]; [exact X|]. exfalso.
    assert (Q : find (fun z => n <=? z) sizes = None).
    { unfold class in *. destruct (find (fun z => n <=? z) sizes) as [z|] eqn:Q; [|reflexivity]. subst item.
      destruct (hash_loop sizes n 0) as (it & oz) eqn:HL. unfold hash in E. rewrite HL in E. injection E as E _.
      destruct (hash_loop_spec n sizes 0) as (it' & HL' & Y). rewrite HL in HL'. rewrite Q in HL', Y. injection HL' as <- <-.
      destruct Y as (Y1 & Y2 & _). assert (it - 0 < length sizes)%nat by (apply nth_error_Some; congruence). lia. }
    rewrite X2 in K. apply (find_none _ _ Q) in K. apply Z.leb_gt in K. lia. }
  destruct (H _ Es) as (Hh & l & El). rewrite <- C in *.
  destruct (get_recycles sizes s1 _ frees1 m a item (p - 8) l SO I1 M Eh Es El) as (s2 & E2 & H2).
  exists s1, s2. split; [reflexivity|]. split; [|congruence]. rewrite E2. f_equal. f_equal. lia.
Qed.

(** Without the underlying malloc the heap does not grow. *)
Lemma nomalloc_heap sizes s n a s' r : fail s = true -> buffer_malloc sizes s n a = Some (s', r) ->
  heap s' = heap s /\ fail s' = true.
Proof.
  intros F E. unfold buffer_malloc in E. destruct (0 <? n); [|injection E as <- <-; auto].
  unfold pool_get in E. destruct (n =? 0); [injection E as <- <-; auto|]. destruct (hash sizes n) as (item & actual).
  unfold buffer_pool_malloc in E. rewrite F in E.
  assert (X : forall s1 b, buffer_pool_init sizes s1 b item actual = Some (s', r) -> heap s' = heap s1 /\ fail s' = fail s1).
  { intros s1 b X. unfold buffer_pool_init, store64 in X. destruct (accessible (heap s1) b 8); [|discriminate].
    cbn in X. injection X as <- <-. auto. }
  destruct (isexternal sizes (Z.of_nat item)).
  - cbn [bind] in E. cbn in E. injection E as <- <-. auto.
  - destruct (nth_error (heads s) item) as [b|] eqn:Eb; [|discriminate]. cbn [bind] in E. destruct (b =? 0) eqn:Z0.
    + cbn in E. injection E as <- <-. auto.
    + unfold buffer_pool_get in E. rewrite Eb in E. cbn [bind] in E. rewrite Z0 in E.
      destruct (load64 s b) as [x|]; [|discriminate]. cbn [bind] in E. rewrite Z0 in E. apply X in E as (E1 & E2). cbn in E1, E2. split; congruence.
Qed.
