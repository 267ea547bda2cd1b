From Coq Require Import ZArith List Bool Arith Lia Permutation.
From Verif Require Import CUtil CInt ListModel ListSpec ListProofs ListProofs2 ListProofs3 ListProofs4 ListProofs6 ScattergatherModel ScattergatherSpec ScattergatherProofs ScattergatherProofs2 ScattergatherProofs3.
Import ListNotations.
Local Open Scope nat_scope.

Lemma when_some {A} b (a x : A) : when b a = Some x -> b = true /\ x = a.
Proof. unfold when. destruct b; [intros E; injection E as ->; auto|discriminate]. Qed.
Lemma rel_state pp sa s s' r : nodes s' = nodes s -> (forall b, buffers s' b = buffers s b) -> (fresh s <= fresh s')%Z -> rel pp sa s r -> rel pp sa s' r.
Proof.
  intros E1 E2 E3 R. destruct R as [links0 same0 blank0 used0 apart0 owned0 counter0 shape0]. constructor; rewrite ?E1; try assumption.
  - intros x c H. rewrite E2. apply used0, H.
  - intros b H. rewrite E2 in H. destruct (owned0 b H) as (A & x & B & C). split; [lia|]. exists x. auto.
  - lia.
Qed.
(** A node that is by itself becomes a segment. *)
Lemma rel_alloc pp sa s r x c : rel pp sa s r -> segment r x = None -> In [x] (lists r) -> (0 <= length_of c <= Z.of_nat (length (field c)))%Z ->
  rel pp sa (State (dataset (nodes s) x (fresh s)) (fun b => if Z.eqb b (fresh s) then Some (Buffer (length_of c) (field c)) else buffers s b) (fresh s + 1))
    (Ref (pool r) (lists r) (set (segment r) x (Some c))).
Proof.
  intros R Nx I B. pose proof (rel_nodup _ _ _ _ R) as ND. assert (Ix : In x (concat (lists r))) by (apply in_concat; exists [x]; split; [exact I|left; reflexivity]).
  assert (IS : forall y, is_segment (Ref (pool r) (lists r) (set (segment r) x (Some c))) y = (y =? x) || is_segment r y).
  { intros y. unfold is_segment, set. cbn [segment]. destruct (y =? x); reflexivity. }
  assert (D : forall y, is_segment r y = true -> data (nodes s y) <> fresh s).
  { intros y H E. apply is_segment_true in H as (d & H). destruct (used _ _ _ _ R y d H) as (_ & _ & H3 & _). destruct (owned _ _ _ _ R (data (nodes s y))) as (L & _); [congruence|lia]. }
  assert (DD : forall y, y <> x -> data (dataset (nodes s) x (fresh s) y) = data (nodes s y)) by (intros y N; rewrite data_dataset; destruct (Nat.eqb_spec y x); [contradiction|reflexivity]).
  assert (DX : data (dataset (nodes s) x (fresh s) x) = fresh s) by (rewrite data_dataset, Nat.eqb_refl; reflexivity).
  destruct R as [links0 same0 blank0 used0 apart0 owned0 counter0 shape0]. constructor; unfold full; cbn [pool lists nodes buffers fresh].
  - apply represents_data. exact links0.
  - exact same0.
  - intros y H Hy. cbn in H. unfold set in H. destruct (Nat.eqb_spec y x) as [|N]; [discriminate H|]. rewrite DD by exact N. apply blank0; assumption.
  - intros y d H. cbn in H. unfold set in H. destruct (Nat.eqb_spec y x) as [E|N].
    + subst y. injection H as <-. rewrite DX, Z.eqb_refl. split; [exact Ix|]. split; [lia|]. auto.
    + rewrite DD by exact N. destruct (used0 y d H) as (A1 & A2 & A3 & A4). destruct (Z.eqb_spec (data (nodes s y)) (fresh s)) as [E|]; [|auto].
      exfalso. apply (D y); [apply is_segment_true; eauto|exact E].
  - intros y z. rewrite !IS. destruct (Nat.eqb_spec y x) as [->|Ny], (Nat.eqb_spec z x) as [->|Nz]; cbn [orb]; intros H1 H2 E; [reflexivity| | |].
    + exfalso. rewrite DX, DD in E by exact Nz. apply (D z H2). congruence.
    + exfalso. rewrite DX, DD in E by exact Ny. apply (D y H1). congruence.
    + rewrite !DD in E by assumption. apply apart0; assumption.
  - intros b Hb. destruct (Z.eqb_spec b (fresh s)) as [E|N].
    + split; [lia|]. exists x. rewrite IS, Nat.eqb_refl, DX. auto.
    + destruct (owned0 b Hb) as (A1 & y & A2 & A3). split; [lia|]. exists y. assert (y <> x) by (intros ->; unfold is_segment in A2; rewrite Nx in A2; discriminate A2).
      rewrite IS, A2, orb_true_r, DD by assumption. auto.
  - lia.
  - intros l Hl. destruct (shape0 l Hl) as (A & A'). split; [intros y Hy; rewrite IS, (A y Hy), orb_true_r; reflexivity|].
    rewrite IS. destruct (Nat.eqb_spec (hd 0 l) x) as [E|]; [|exact A']. intros _. assert (NE : l <> []) by (pose proof (Forall_inv_tail (proj2 links0)) as Fo; rewrite Forall_forall in Fo; exact (proj1 (Fo l Hl))).
    assert (El : l = [x]) by (apply (unique_list (lists r) _ _ x ND Hl I); [rewrite <- E; apply hd_In, NE|left; reflexivity]). subst l. reflexivity.
Qed.

Section ops2.
Context (fuel pp : nat) (sa : list nat) (F : length sa < fuel) (Z0 : ~ In 0 (pp :: sa)).
Set Default Proof Using "All".

Lemma allocate_step s r size bs : rel pp sa s r -> (0 <= size)%Z -> (size + 8 <= 18446744073709551615)%Z -> Z.of_nat (length bs) = size ->
  exists s', segment_allocate fuel s pp size (Some bs) = Some (s', hd 0 (pool r)) /\
    match pool r with [] => rel pp sa s' r | x :: p => rel pp sa s' (Ref p ([x] :: lists r) (set (segment r) x (Some (Content size bs)))) end.
Proof.
  intros R S1 S2 L. destruct (get_step fuel pp sa F Z0 s r R) as (s1 & E1 & B1 & F1 & D1 & R1). unfold pool_get in E1.
  destruct (dequeue fuel (nodes s) pp) as [(h, np)|] eqn:Ed; cbn [bind] in E1; [|discriminate E1]. injection E1 as <- ->. cbn [buffers fresh set_nodes nodes] in *.
  unfold segment_allocate, pool_get. cbn [nodes buffers fresh set_nodes]. rewrite Ed. cbn [bind]. unfold SIZEOF_BUFFER, u64. rewrite Z.mod_small by lia.
  assert (NB : buffers s (fresh s) = None). { destruct (buffers s (fresh s)) eqn:E; [|reflexivity]. destruct (owned _ _ _ _ R (fresh s)); [congruence|lia]. }
  destruct (pool r) as [|x p] eqn:Ep; cbn [hd].
  - change (0 =? NULL) with true. cbv iota. unfold buffer_free. cbn [buffers set_nodes fresh nodes]. pose proof (counter _ _ _ _ R) as C. destruct (Z.eqb_spec (fresh s) 0); [lia|]. rewrite Z.eqb_refl. cbn [bind].
    eexists. split; [reflexivity|]. apply (rel_state pp sa s); [|intros b|cbn; lia|exact R].
    + cbn [set_buffer nodes set_nodes]. assert (E : set_nodes s h = s) by exact R1. exact (f_equal nodes E).
    + cbn [set_buffer buffers set_nodes]. destruct (Z.eqb_spec b (fresh s)) as [->|]; [symmetry; exact NB|reflexivity].
  - assert (Ix : In x sa) by (apply (Permutation_in _ (same _ _ _ _ R)), in_or_app; left; rewrite Ep; left; reflexivity).
    destruct (Nat.eqb_spec x NULL) as [->|_]; [exfalso; apply Z0; right; exact Ix|]. destruct (Z.ltb_spec (8 + size) 8); [lia|].
    cbn [set_nodes buffers]. rewrite Z.eqb_refl. cbn [bind payload]. eexists. split; [reflexivity|].
    assert (Nx : segment r x = None).
    { destruct (segment r x) as [c|] eqn:E; [|reflexivity]. destruct (used _ _ _ _ R x c E) as (I & _). destruct (rel_in _ _ _ _ R x I) as (_ & HN & _). exfalso. apply HN. rewrite Ep. right. left. reflexivity. }
    pose proof (rel_alloc pp sa _ _ x (Content size bs) R1 Nx (or_introl eq_refl)) as RA. cbn [length_of field pool lists segment nodes buffers fresh set_nodes] in RA.
    specialize (RA ltac:(lia)). revert RA. apply rel_state; cbn [nodes buffers fresh set_nodes set_buffer]; [reflexivity| |lia].
    intros b. destruct (Z.eqb_spec b (fresh s)); [|reflexivity]. f_equal. f_equal. replace (Z.to_nat (8 + size - 8)) with (length bs) by lia. apply firstn_all.
Qed.

(** A record without segments goes back to the pool. *)
Lemma retire_step s p A x B f : rel pp sa s (Ref p (A ++ [x] :: B) f) -> f x = None ->
  exists s', bind (segment_fini fuel s x) (fun s => pool_put fuel s pp x) = Some s' /\ rel pp sa s' (Ref (p ++ [x]) (A ++ B) f).
Proof.
  intros R Nx. set (r := Ref p (A ++ [x] :: B) f) in *.
  assert (I : In x (concat (lists r))) by (cbn; rewrite concat_app; apply in_or_app; right; left; reflexivity). destruct (rel_in _ _ _ _ R x I) as (I1 & I2 & I3).
  pose proof (links _ _ _ _ R) as L. unfold full in L. cbn [pool lists r] in L.
  assert (NE : Forall (fun l => l <> []) (A ++ B)) by (pose proof (rel_nonempty _ _ _ _ R) as NE; cbn [lists r] in NE; apply Forall_app in NE as (N1 & N2); apply Forall_app; split; [exact N1|exact (Forall_inv_tail N2)]).
  destruct (remove_ok fuel (nodes s) x _ (links _ _ _ _ R) I1 (rel_len _ _ _ _ R _ F)) as (h & E & Rep & P & K).
  assert (D : s_remove x (full pp r) = [x] :: (pp :: p) :: A ++ B).
  { unfold s_remove. change (detach x (full pp r)) with (drop x (full pp r)). unfold full. rewrite drop_pool by (exact I2 || discriminate). cbn [pool lists r]. f_equal. f_equal.
    pose proof (detach_mid x A [] [] B) as DM. cbn [app ne] in DM. apply DM; [exact (rel_nodup _ _ _ _ R)|exact NE]. }
  rewrite D in Rep, P. unfold segment_fini. rewrite E. cbn [bind].
  assert (Rep' : represents h ((pp :: p) :: [x] :: A ++ B)) by (apply (represents_perm _ ([x] :: (pp :: p) :: A ++ B)); [apply perm_swap|exact Rep]).
  assert (P' : Permutation (concat (full pp r)) (concat ((pp :: p) :: [x] :: A ++ B))) by (rewrite P; apply concat_perm, perm_swap).
  destruct (put_links fuel pp sa F Z0 (set_nodes s (dataset h x 0%Z)) p x (A ++ B)) as (s' & E2 & Rep2 & D2 & B2 & F2).
  - cbn [nodes set_nodes]. apply represents_data, Rep'.
  - rewrite <- (Permutation_length P'). exact (rel_len _ _ _ _ R _ F).
  - exists s'. split; [exact E2|]. cbn [nodes buffers fresh set_nodes] in D2, B2, F2.
    assert (D3 : forall y, data (nodes s' y) = if y =? x then 0%Z else data (nodes s y)).
    { intros y. rewrite D2, data_dataset. destruct (y =? x); [reflexivity|]. apply (proj1 K). }
    assert (DS : forall y, is_segment r y = true -> data (nodes s' y) = data (nodes s y)).
    { intros y H. rewrite D3. destruct (Nat.eqb_spec y x) as [->|]; [|reflexivity]. unfold is_segment in H. cbn in H. rewrite Nx in H. discriminate H. }
    constructor; cbn [pool lists segment]; [exact Rep2| | | | | | |].
    + rewrite <- (same _ _ _ _ R). cbn [pool lists r]. rewrite !concat_app. cbn [concat]. rewrite <- app_assoc. apply Permutation_app_head. cbn [app]. rewrite <- Permutation_middle. reflexivity.
    + intros y H Hy. rewrite D3. destruct (y =? x); [reflexivity|]. apply (blank _ _ _ _ R); assumption.
    + intros y d H. destruct (used _ _ _ _ R y d H) as (A1 & A2 & A3 & A4). assert (Sy : is_segment r y = true) by (apply is_segment_true; eauto). rewrite (DS y Sy), B2.
      split; [|auto]. cbn [lists r] in A1. rewrite concat_app in A1 |- *. apply in_app_iff in A1 as [A1|A1]; apply in_or_app; [left; exact A1|right]. destruct A1 as [->|A1]; [congruence|exact A1].
    + intros y z Hy Hz E3. rewrite (DS y Hy), (DS z Hz) in E3. apply (apart _ _ _ _ R); assumption.
    + intros b Hb. rewrite B2 in Hb. destruct (owned _ _ _ _ R b Hb) as (A1 & y & A2 & A3). rewrite F2. split; [exact A1|]. exists y. split; [exact A2|]. rewrite (DS y A2). exact A3.
    + rewrite F2. exact (counter _ _ _ _ R).
    + intros l Hl. apply (shape _ _ _ _ R l). cbn. apply in_app_iff in Hl as [Hl|Hl]; apply in_or_app; [left|right; right]; exact Hl.
Qed.

Lemma segments_free_step x A B : forall l turns s p f, rel pp sa s (Ref p (A ++ (x :: l) :: B) f) -> f x = None -> length l < turns ->
  exists s', segments_free fuel turns s pp x = Some s' /\ rel pp sa s' (Ref (p ++ l) (A ++ [x] :: B) (clear f l)).
Proof.
  induction l as [|y l IH]; intros turns s p f R Nx T; (destruct turns as [|turns]; [lia|]); cbn [segments_free].
  - set (r := Ref p (A ++ [x] :: B) f) in *. destruct (rel_ring fuel pp sa F Z0 s r [x] R) as (Q & N & _); [cbn; apply in_or_app; right; left; reflexivity|].
    destruct (head_ring _ _ _ Q N) as (-> & _). cbn. exists s. split; [reflexivity|]. rewrite app_nil_r. exact R.
  - set (r := Ref p (A ++ (x :: y :: l) :: B) f) in *. assert (I : In (x :: y :: l) (lists r)) by (cbn; apply in_or_app; right; left; reflexivity).
    destruct (rel_ring fuel pp sa F Z0 s r _ R I) as (Q & N & Z & _).
    destruct (head_ring _ _ _ Q N) as (-> & _). cbn [hd]. destruct (Nat.eqb_spec y NULL) as [->|_]; [exfalso; apply Z; right; left; reflexivity|].
    assert (Sy : is_segment r y = true) by (apply (shape _ _ _ _ R _ I); left; reflexivity).
    destruct (record_segment_free_step fuel pp sa F Z0 s r y R Sy) as (s1 & E1 & R1). rewrite E1. cbn [bind]. cbn [pool lists segment r] in R1.
    assert (D : drop y (A ++ (x :: y :: l) :: B) = A ++ (x :: l) :: B).
    { pose proof (detach_mid y A [x] l B) as DM. cbn [app ne] in DM. apply DM; [exact (rel_nodup _ _ _ _ R)|].
      pose proof (rel_nonempty _ _ _ _ R) as NE. cbn [lists r] in NE. apply Forall_app in NE as (N1 & N2). apply Forall_app. split; [exact N1|exact (Forall_inv_tail N2)]. }
    rewrite D in R1. assert (NE : x <> y) by (intros ->; inversion N as [|? ? X _]; apply X; left; reflexivity).
    destruct (IH turns s1 (p ++ [y]) (set f y None) R1) as (s2 & E2 & R2); [unfold set; destruct (Nat.eqb_spec x y); [contradiction|exact Nx]|cbn in T; lia|].
    exists s2. split; [exact E2|]. rewrite <- app_assoc in R2. cbn [app] in R2. revert R2. apply rel_ext. intros z. unfold clear, set. cbn [has existsb].
    change (existsb (Nat.eqb z) l) with (has z l). destruct (has z l), (z =? y); reflexivity.
Qed.
Lemma split_record s r x : rel pp sa s r -> is_record r x = true ->
  exists A B, lists r = A ++ (x :: parts r x) :: B /\ Forall (fun l => l <> []) (A ++ B) /\ segment r x = None /\ length (parts r x) < fuel.
Proof.
  intros R Rx. destruct (rel_record _ _ _ _ R x Rx) as (I & Nx & _). destruct (rel_ring fuel pp sa F Z0 s r _ R I) as (_ & _ & _ & L). apply in_split in I as (A & B & E).
  exists A, B. split; [exact E|]. split; [|split; [apply is_segment_false, Nx|cbn in L; lia]].
  pose proof (rel_nonempty _ _ _ _ R) as NE. rewrite E in NE. apply Forall_app in NE as (N1 & N2). apply Forall_app. split; [exact N1|exact (Forall_inv_tail N2)].
Qed.

Theorem perform_ok s r c r' res : rel pp sa s r -> r_perform r c = Some (r', res) -> exists s', perform fuel pp s c = Some (s', res) /\ rel pp sa s' r'.
Proof.
  intros R E. destruct c; cbn [r_perform] in E; cbn [perform].
  - (* SegmentAllocate *)
    destruct block as [bs|].
    + destruct (when _ tt) eqn:W; [|discriminate E]. cbn [bind] in E. apply when_some in W as (W & _). apply andb_prop in W as (W & W3). apply andb_prop in W as (W1 & W2).
      apply Z.leb_le in W1, W2. apply Z.eqb_eq in W3. destruct (allocate_step s r size bs R W1 W2 W3) as (s' & E' & R'). rewrite E'. cbn [bind]. exists s'.
      destruct (pool r) as [|x p]; injection E as <- <-; auto.
    + apply when_some in E as (_ & E). injection E as -> ->. exists s. auto.
  - (* SegmentFree *)
    apply when_some in E as (H & E). injection E as -> ->. destruct (free_step fuel pp sa F Z0 s r sp R H) as (s' & -> & R'). exists s'. auto.
  - (* RecordSegmentFree *)
    apply when_some in E as (H & E). injection E as -> ->. destruct (record_segment_free_step fuel pp sa F Z0 s r sp R H) as (s' & -> & R'). exists s'. auto.
  - (* RecordAllocate *)
    unfold record_allocate. destruct (get_step fuel pp sa F Z0 s r R) as (s' & -> & _ & _ & _ & R'). cbn [bind]. exists s'.
    destruct (pool r) as [|x p]; injection E as <- <-; [subst s'|]; auto.
  - (* RecordSegmentsFree *)
    apply when_some in E as (H & E). injection E as -> ->. destruct (split_record s r rp R H) as (A & B & EL & NE & Nx & L). pose proof (rel_nodup _ _ _ _ R) as ND.
    rewrite EL, at_record_mid; [|rewrite <- EL; exact ND|exact NE].
    assert (R0 : rel pp sa s (Ref (pool r) (A ++ (rp :: parts r rp) :: B) (segment r))) by (rewrite <- EL; destruct r; exact R).
    destruct (segments_free_step rp A B _ fuel s _ _ R0 Nx L) as (s' & -> & R'). exists s'. auto.
  - (* RecordFree *)
    apply when_some in E as (H & E). injection E as -> ->. destruct (split_record s r rp R H) as (A & B & EL & NE & Nx & L). pose proof (rel_nodup _ _ _ _ R) as ND.
    rewrite EL, at_record_mid; [|rewrite <- EL; exact ND|exact NE].
    assert (R0 : rel pp sa s (Ref (pool r) (A ++ (rp :: parts r rp) :: B) (segment r))) by (rewrite <- EL; destruct r; exact R).
    destruct (segments_free_step rp A B _ fuel s _ _ R0 Nx L) as (s1 & E1 & R1). unfold record_free. rewrite E1. cbn [bind].
    destruct (retire_step s1 _ A rp B _ R1) as (s2 & E2 & R2); [unfold clear; rewrite Nx; destruct (has _ _); reflexivity|]. rewrite E2. exists s2. split; [reflexivity|].
    rewrite <- app_assoc in R2. assert (D : drop rp (A ++ [rp] :: B) = A ++ B).
    { pose proof (detach_mid rp A [] [] B) as DM. cbn [app ne] in DM. apply DM; [exact (rel_nodup _ _ _ _ R1)|exact NE]. }
    rewrite D. exact R2.
  - apply when_some in E as (H & E). injection E as -> ->. apply andb_prop in H as (H1 & H2). destruct (prepend_step fuel pp sa F Z0 s r rp sp R H1 H2) as (s' & -> & R'). exists s'. auto.
  - apply when_some in E as (H & E). injection E as -> ->. apply andb_prop in H as (H & H3). apply andb_prop in H as (H1 & H2). apply negb_true_iff, Nat.eqb_neq in H3.
    destruct (append_step fuel pp sa F Z0 s r rp sp R H1 H2 H3) as (s' & -> & R'). exists s'. auto.
  - apply when_some in E as (H & E). injection E as -> ->. apply andb_prop in H as (H1 & H2). destruct (insert_step fuel pp sa F Z0 s r op sp R H1 H2) as (s' & -> & R'). exists s'. auto.
  - apply when_some in E as (H & E). injection E as -> ->. apply andb_prop in H as (H1 & H2). destruct (replace_step fuel pp sa F Z0 s r op sp R H1 H2) as (s' & -> & R'). exists s'. auto.
  - apply when_some in E as (H & E). injection E as -> ->. destruct (remove_step fuel pp sa F Z0 s r sp R H) as (s' & -> & R' & _). exists s'. auto.
  - (* LengthGet *)
    destruct (segment r sp) as [c|] eqn:Hc; [|discriminate E]. cbn [bind] in E. injection E as <- <-. unfold length_get. rewrite (buffer_of_ok fuel pp sa F Z0 s r sp c R Hc). exists s. auto.
  - (* LengthSet *)
    destruct (segment r sp) as [c|] eqn:Hc; [|discriminate E]. cbn [bind] in E. apply when_some in E as (H & E). injection E as -> ->. apply andb_prop in H as (H1 & H2). apply Z.leb_le in H1, H2.
    unfold length_set. rewrite (buffer_of_ok fuel pp sa F Z0 s r sp c R Hc). cbn [bind payload]. eexists. split; [reflexivity|].
    exact (rel_content pp sa s r sp c (Content ll (field c)) R Hc (conj H1 H2)).
  - (* Store *)
    destruct (segment r sp) as [c|] eqn:Hc; [|discriminate E]. cbn [bind] in E. apply when_some in E as (H & E). injection E as -> ->.
    unfold store. rewrite (buffer_of_ok fuel pp sa F Z0 s r sp c R Hc). cbn [bind payload len]. rewrite H. eexists. split; [reflexivity|]. apply Nat.leb_le in H.
    apply (rel_content pp sa s r sp c (Content (length_of c) (bs ++ skipn (length bs) (field c))) R Hc). cbn [length_of field]. rewrite app_length, skipn_length.
    destruct (used _ _ _ _ R sp c Hc) as (_ & _ & _ & U). lia.
  - (* Load *)
    apply when_some in E as (H & E). injection E as -> ->. apply is_segment_true in H as (c & Hc). unfold load. rewrite (buffer_of_ok fuel pp sa F Z0 s r sp c R Hc). cbn [bind payload len].
    destruct (used _ _ _ _ R sp c Hc) as (_ & _ & _ & U). destruct (Z.leb_spec (length_of c) (Z.of_nat (length (field c)))); [|lia]. exists s. split; [|exact R].
    unfold octets_of. rewrite Hc. reflexivity.
  - apply when_some in E as (H & E). injection E as -> ->. destruct (rel_record _ _ _ _ R rp H) as (I & _). destruct (rel_ring fuel pp sa F Z0 s r _ R I) as (Q & N & _).
    destruct (head_ring _ _ _ Q N) as (-> & _). exists s. auto.
  - apply when_some in E as (H & E). injection E as -> ->. destruct (rel_record _ _ _ _ R rp H) as (I & _). destruct (rel_ring fuel pp sa F Z0 s r _ R I) as (Q & N & _).
    destruct (head_ring _ _ _ Q N) as (_ & ->). exists s. auto.
  - apply when_some in E as (H & E). injection E as -> ->. destruct (neighbours fuel pp sa F Z0 s r sp R H) as (-> & _). exists s. auto.
  - apply when_some in E as (H & E). injection E as -> ->. destruct (neighbours fuel pp sa F Z0 s r sp R H) as (_ & ->). exists s. auto.
  - (* Enumerate *)
    apply when_some in E as (H & E). injection E as -> ->. apply andb_prop in H as (H1 & H2). apply Z.ltb_lt in H2. rewrite (enumerate_ok fuel pp sa F Z0 s r rp R H1 H2). exists s. auto.
  - (* Measure *)
    apply when_some in E as (H & E). injection E as -> ->. apply andb_prop in H as (H1 & H2). apply Z.ltb_lt in H2. unfold measure. rewrite (segments_ok fuel pp sa F Z0 s r rp R H1). cbn [bind].
    rewrite (measure_ok fuel pp sa F Z0 s r R); [exists s; auto| |lia|exact H2]. intros y. apply (parts_segments fuel pp sa F Z0 s r rp y R H1).
  - (* Vectorize *)
    apply when_some in E as (H & E). injection E as -> ->. apply andb_prop in H as (H1 & H2). apply Z.leb_le in H2. rewrite (vector_ok fuel pp sa F Z0 s r rp nn R H1 H2). cbn [bind].
    exists s. unfold when. destruct (Z.leb _ nn); [|auto]. rewrite (gather_ok fuel pp sa F Z0 s r R) by (intros y; apply (parts_segments fuel pp sa F Z0 s r rp y R H1)). auto.
  - (* Write *)
    destruct (when _ tt) eqn:W; [|discriminate E]. cbn [bind] in E. apply when_some in W as (H & _). apply andb_prop in H as (H1 & H2). apply Z.ltb_lt in H2.
    unfold record_write. rewrite (enumerate_ok fuel pp sa F Z0 s r rp R H1 H2). cbn [bind]. rewrite (limits_ok fuel pp sa F Z0). exists s. destruct (limits r rp); cbn [negb]; [|injection E as <- <-; auto].
    rewrite (vector_ok fuel pp sa F Z0 s r rp _ R H1) by lia. rewrite Z.leb_refl. cbn [when bind]. rewrite (gather_ok fuel pp sa F Z0 s r R) by (intros y; apply (parts_segments fuel pp sa F Z0 s r rp y R H1)).
    cbn [bind]. rewrite (message_concat fuel pp sa F Z0). injection E as <- <-. auto.
  - (* Read *)
    destruct (when _ tt) eqn:W; [|discriminate E]. cbn [bind] in E. apply when_some in W as (H & _). apply andb_prop in H as (H & H3). apply andb_prop in H as (H1 & H2). apply Z.ltb_lt in H2.
    unfold record_read. rewrite (enumerate_ok fuel pp sa F Z0 s r rp R H1 H2). cbn [bind]. rewrite (limits_ok fuel pp sa F Z0). destruct (limits r rp); cbn [negb].
    + rewrite (vector_ok fuel pp sa F Z0 s r rp _ R H1) by lia. rewrite Z.leb_refl. cbn [when bind]. destruct input as [bs|]; [|injection E as <- <-; exists s; auto].
      destruct (scatter_ok fuel pp sa F Z0 (parts r rp) s r bs R) as (s' & -> & R'); [intros y; apply (parts_segments fuel pp sa F Z0 s r rp y R H1)|]. injection E as <- <-. exists s'. auto.
    + exists s. destruct input; injection E as <- <-; auto.
  - (* Send *)
    apply when_some in E as (H & E). injection E as -> ->. apply andb_prop in H as (H1 & H2).
    assert (H3 : (Z.of_nat (length (parts r rp)) < 18446744073709551616)%Z) by (apply andb_prop in H2 as (_ & H2); apply Nat.leb_le in H2; lia).
    unfold record_send. rewrite (enumerate_ok fuel pp sa F Z0 s r rp R H1 H3). cbn [bind]. rewrite (limits_ok fuel pp sa F Z0). rewrite H2. cbn [negb]. exists s.
    rewrite (vector_ok fuel pp sa F Z0 s r rp _ R H1) by lia. rewrite Z.leb_refl. cbn [when bind]. rewrite (gather_ok fuel pp sa F Z0 s r R) by (intros y; apply (parts_segments fuel pp sa F Z0 s r rp y R H1)).
    cbn [bind]. rewrite (message_concat fuel pp sa F Z0). auto.
  - (* Receive *)
    destruct (when _ tt) eqn:W; [|discriminate E]. cbn [bind] in E. apply when_some in W as (H & _). apply andb_prop in H as (H & _). apply andb_prop in H as (H1 & H2).
    assert (H3 : (Z.of_nat (length (parts r rp)) < 18446744073709551616)%Z) by (apply andb_prop in H2 as (_ & H2); apply Nat.leb_le in H2; lia).
    unfold record_receive. rewrite (enumerate_ok fuel pp sa F Z0 s r rp R H1 H3). cbn [bind]. rewrite (limits_ok fuel pp sa F Z0). rewrite H2. cbn [negb].
    rewrite (vector_ok fuel pp sa F Z0 s r rp _ R H1) by lia. rewrite Z.leb_refl. cbn [when bind]. destruct input as [bs|]; [|injection E as <- <-; exists s; auto].
    destruct (scatter_ok fuel pp sa F Z0 (parts r rp) s r bs R) as (s' & -> & R'); [intros y; apply (parts_segments fuel pp sa F Z0 s r rp y R H1)|]. injection E as <- <-. exists s'. auto.
Qed.
Theorem perform_all_ok : forall cs s r r' res, rel pp sa s r -> r_perform_all r cs = Some (r', res) -> exists s', perform_all fuel pp s cs = Some (s', res) /\ rel pp sa s' r'.
Proof.
  induction cs as [|c cs IH]; intros s r r' res R E; cbn [r_perform_all perform_all] in *; [injection E as <- <-; exists s; auto|].
  destruct (r_perform r c) as [(r1, x)|] eqn:E1; [|discriminate E]. cbn [bind] in E. destruct (perform_ok s r c r1 x R E1) as (s1 & -> & R1). cbn [bind].
  destruct (r_perform_all r1 cs) as [(r2, xs)|] eqn:E2; [|discriminate E]. cbn [bind] in E. injection E as <- <-. destruct (IH s1 r1 r2 xs R1 E2) as (s2 & -> & R2). exists s2. auto.
Qed.

(** Starting. *)
Lemma populate_ok : forall xs l h, represents h [pp :: l] -> NoDup (pp :: l ++ xs) -> length (pp :: l ++ xs) <= fuel -> (forall y, In y l -> data (h y) = 0%Z) ->
  exists h', pool_populate fuel h pp xs = Some h' /\ represents h' [pp :: l ++ xs] /\ (forall y, In y (l ++ xs) -> data (h' y) = 0%Z).
Proof.
  induction xs as [|x xs IH]; intros l h Rep N L D; [exists h; rewrite app_nil_r; auto|]. cbn [pool_populate].
  assert (Nx : ~ In x (pp :: l)). { change (pp :: l ++ x :: xs) with ((pp :: l) ++ x :: xs) in N. apply NoDup_remove_2 in N. intros H. apply N, in_or_app. left. exact H. }
  assert (FR : forall y, y <> x -> next (nullinit h x y) = next (h y) /\ prev (nullinit h x y) = prev (h y) /\ root (nullinit h x y) = root (h y)).
  { intros y Ny. destruct (init_fields h x y) as (B1 & B2 & B3 & _). unfold nullinit, dataset, put. destruct (Nat.eqb_spec y x); [contradiction|]. auto. }
  assert (Rep1 : represents (nullinit h x) [pp :: l; [x]]).
  { split.
    - cbn. change (pp :: l ++ x :: xs) with ((pp :: l) ++ x :: xs) in N. apply (nodup_l _ xs). cbn. rewrite <- app_assoc. exact N.
    - constructor; [|constructor; [|constructor]].
      + apply (ring_frame h); [|exact (Forall_inv (proj2 Rep))]. intros y Hy. apply FR. intros ->. contradiction.
      + destruct (init_fields h x x) as (B1 & B2 & B3 & _). rewrite Nat.eqb_refl in B1, B2, B3. unfold ring, chain, adjacent, nullinit, dataset, put. cbn. rewrite Nat.eqb_refl. cbn [next prev root].
        split; [discriminate|]. split; [exact I|]. split; [split; [exact B1|exact B2]|]. constructor; [|constructor]. rewrite Nat.eqb_refl. exact B3. }
  assert (LEN : length (concat [pp :: l; [x]]) <= fuel) by (cbn in L |- *; rewrite app_length in *; cbn in *; lia).
  destruct (enqueue_step fuel _ pp l [[x]] pp x Rep1 (or_introl eq_refl)) as (h' & E & Rep2); [left; reflexivity|exact LEN|].
  destruct (step_ok fuel _ (Enqueue pp x) _ Rep1) as (h2 & E2 & _ & _ & K); [constructor; [left; reflexivity|constructor; [apply in_rest; left; reflexivity|constructor]]|exact LEN|].
  assert (h2 = h') by congruence. subst h2. cbn [step] in E. destruct (enqueue fuel (nullinit h x) pp x) as [h3|]; cbn [bind] in E |- *; [|discriminate E].
  assert (h3 = h') by congruence. subst h3. assert (DE : detach x [[x]] = []) by (cbn; rewrite Nat.eqb_refl; reflexivity). rewrite DE in Rep2.
  destruct (IH (l ++ [x]) h' Rep2) as (h4 & E4 & R4 & D4).
  - rewrite <- app_assoc. exact N.
  - rewrite <- app_assoc. exact L.
  - intros y Hy. rewrite (proj1 K), data_nullinit. destruct (Nat.eqb_spec y x); [reflexivity|]. apply D. apply in_app_iff in Hy as [Hy|[Hy|[]]]; [exact Hy|congruence].
  - exists h4. rewrite <- app_assoc in R4, D4. auto.
Qed.
Lemma start_ok h : NoDup (pp :: sa) -> exists s, start fuel h pp sa = Some s /\ rel pp sa s (r_start sa).
Proof.
  intros N. unfold start. assert (Rep : represents (nullinit h pp) [[pp]]).
  { split; [cbn; constructor; [intros []|constructor]|]. constructor; [|constructor].
    destruct (init_fields h pp pp) as (B1 & B2 & B3 & _). rewrite Nat.eqb_refl in B1, B2, B3. unfold ring, chain, adjacent, nullinit, dataset, put. cbn. rewrite Nat.eqb_refl. cbn [next prev root].
    split; [discriminate|]. split; [exact I|]. split; [split; [exact B1|exact B2]|]. constructor; [|constructor]. rewrite Nat.eqb_refl. exact B3. }
  destruct (populate_ok sa [] _ Rep N) as (h' & E & R' & D); [cbn; lia|intros y []|]. rewrite E. cbn [bind]. eexists. split; [reflexivity|].
  constructor; cbn [nodes buffers fresh pool lists segment r_start].
  - exact R'.
  - cbn. rewrite app_nil_r. reflexivity.
  - intros x _ Hx. apply D, Hx.
  - discriminate.
  - discriminate.
  - congruence.
  - lia.
  - intros l [].
Qed.
End ops2.
