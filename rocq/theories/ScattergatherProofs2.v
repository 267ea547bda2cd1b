From Coq Require Import ZArith List Bool Arith Lia Permutation.
From Verif Require Import CUtil CInt ListModel ListSpec ListProofs ListProofs2 ListProofs3 ListProofs4 ListProofs6 ScattergatherModel ScattergatherSpec ScattergatherProofs.
Import ListNotations.
Local Open Scope nat_scope.

(** The links, the data pointers and the buffers are as the specification says. *)
Definition full (pp : nat) (r : ref) : list (list nat) := (pp :: pool r) :: lists r.
Record rel (pp : nat) (sa : list nat) (s : state) (r : ref) : Prop := {
  links : represents (nodes s) (full pp r);
  same : Permutation (pool r ++ concat (lists r)) sa;
  blank : forall x, segment r x = None -> In x sa -> data (nodes s x) = 0%Z;
  used : forall x c, segment r x = Some c -> In x (concat (lists r)) /\ data (nodes s x) <> 0%Z /\
    buffers s (data (nodes s x)) = Some (Buffer (length_of c) (field c)) /\ (0 <= length_of c <= Z.of_nat (length (field c)))%Z;
  apart : forall x y, is_segment r x = true -> is_segment r y = true -> data (nodes s x) = data (nodes s y) -> x = y;
  owned : forall b, buffers s b <> None -> (b < fresh s)%Z /\ exists x, is_segment r x = true /\ data (nodes s x) = b;
  counter : (0 < fresh s)%Z;
  shape : forall l, In l (lists r) -> (forall x, In x (tl l) -> is_segment r x = true) /\ (is_segment r (hd 0 l) = true -> tl l = []) }.

Lemma keep_segment r p ls x : is_segment (Ref p ls (segment r)) x = is_segment r x. Proof. reflexivity. Qed.

Section rel_facts.
Context (pp : nat) (sa : list nat) (s : state) (r : ref) (R : rel pp sa s r).
Set Default Proof Using "All".
Lemma rel_nodup : NoDup (concat (lists r)).
Proof. destruct (links _ _ _ _ R) as (N & _). unfold full in N. cbn in N. exact (nodup_r _ _ (nodup_r [pp] _ N)). Qed.
Lemma rel_nonempty : Forall (fun l => l <> []) (lists r).
Proof. apply (nonempties (nodes s)). exact (Forall_inv_tail (proj2 (links _ _ _ _ R))). Qed.
Lemma rel_in x : In x (concat (lists r)) -> In x (concat (full pp r)) /\ ~ In x (pp :: pool r) /\ In x sa.
Proof.
  intros I. split; [apply in_rest, I|]. split; [apply (disj_first (nodes s) _ (lists r)); [exact (links _ _ _ _ R)|exact I]|].
  apply (Permutation_in _ (same _ _ _ _ R)), in_or_app. right. exact I.
Qed.
Lemma rel_len fuel : length sa < fuel -> length (concat (full pp r)) <= fuel.
Proof. intros H. unfold full. cbn. rewrite (Permutation_length (same _ _ _ _ R)). lia. Qed.
Lemma rel_segment x : is_segment r x = true -> In x (concat (lists r)).
Proof. intros H. apply is_segment_true in H as (c & H). apply (used _ _ _ _ R x c H). Qed.
Lemma rel_record x : is_record r x = true -> In (x :: parts r x) (lists r) /\ is_segment r x = false /\ In x (concat (lists r)).
Proof.
  intros H. unfold is_record in H. apply andb_prop in H as (H1 & H2). apply negb_true_iff in H2.
  pose proof (head_list r x rel_nonempty H1) as I. split; [exact I|]. split; [exact H2|]. apply in_concat. exists (x :: parts r x). split; [exact I|left; reflexivity].
Qed.
Lemma rel_loose x : loose r x = true -> is_segment r x = true /\ In [x] (lists r).
Proof.
  intros H. unfold loose in H. apply andb_prop in H as (H1 & H2). split; [exact H1|]. pose proof (head_list r x rel_nonempty H2) as I.
  destruct (shape _ _ _ _ R _ I) as (_ & E). cbn in E. rewrite (E H1) in I. exact I.
Qed.
Lemma rel_onrecord x : onrecord r x = true -> is_segment r x = true /\ exists p l, In (p :: l) (lists r) /\ In x l /\ is_segment r p = false.
Proof.
  intros H. unfold onrecord in H. apply andb_prop in H as (H1 & H2). split; [exact H1|]. apply existsb_exists in H2 as (l & I & H2). apply has_In in H2.
  destruct l as [|p l]; [destruct H2|]. exists p, l. split; [exact I|]. split; [exact H2|]. destruct (is_segment r p) eqn:E; [|reflexivity].
  destruct (shape _ _ _ _ R _ I) as (_ & Q). cbn in Q, H2. rewrite (Q E) in H2. destruct H2.
Qed.
End rel_facts.

(** A change of links only. *)
Lemma rel_links pp sa s r h p ls : rel pp sa s r -> represents h ((pp :: p) :: ls) ->
  Permutation (concat (full pp r)) (concat ((pp :: p) :: ls)) -> (forall y, data (h y) = data (nodes s y)) ->
  (forall x, is_segment r x = true -> In x (concat ls)) ->
  (forall l, In l ls -> (forall x, In x (tl l) -> is_segment r x = true) /\ (is_segment r (hd 0 l) = true -> tl l = [])) ->
  rel pp sa (set_nodes s h) (Ref p ls (segment r)).
Proof.
  intros R Rep P K I S. destruct R. constructor; unfold full; cbn [pool lists segment nodes buffers fresh set_nodes].
  - exact Rep.
  - unfold full in P. cbn in P. apply Permutation_cons_inv in P. rewrite <- P. exact same0.
  - intros x H Hx. rewrite K. apply blank0; assumption.
  - intros x c H. rewrite K. destruct (used0 x c H) as (A1 & A2). split; [|exact A2]. apply I. apply is_segment_true. eauto.
  - intros x y. rewrite !K. apply apart0.
  - intros b Hb. destruct (owned0 b Hb) as (A1 & x & A2 & A3). split; [exact A1|]. exists x. rewrite K. auto.
  - exact counter0.
  - exact S.
Qed.
(** A change of the data of a segment only. *)
Lemma rel_content pp sa s r x c c' : rel pp sa s r -> segment r x = Some c -> (0 <= length_of c' <= Z.of_nat (length (field c')))%Z ->
  rel pp sa (set_buffer s (data (nodes s x)) (Some (Buffer (length_of c') (field c')))) (Ref (pool r) (lists r) (set (segment r) x (Some c'))).
Proof.
  intros R Hx B. assert (Sx : is_segment r x = true) by (apply is_segment_true; eauto).
  assert (IS : forall y, is_segment (Ref (pool r) (lists r) (set (segment r) x (Some c'))) y = is_segment r y).
  { intros y. unfold is_segment, set. cbn [segment]. destruct (Nat.eqb_spec y x) as [->|]; [rewrite Hx; reflexivity|reflexivity]. }
  pose proof (used _ _ _ _ R x c Hx) as (U1 & U2 & U3 & U4). destruct R. constructor; unfold full; cbn [pool lists nodes buffers fresh set_buffer].
  - exact links0.
  - exact same0.
  - intros y H Hy. apply blank0; [|exact Hy]. apply is_segment_false in H. rewrite IS in H. apply is_segment_false, H.
  - intros y d H. cbn [segment set] in H. unfold set in H. destruct (Nat.eqb_spec y x) as [->|N].
    + injection H as <-. rewrite Z.eqb_refl. auto.
    + destruct (used0 y d H) as (A1 & A2 & A3 & A4). destruct (Z.eqb_spec (data (nodes s y)) (data (nodes s x))) as [E|]; [|auto].
      exfalso. apply N, apart0; [apply is_segment_true; eauto|exact Sx|exact E].
  - intros y z. rewrite !IS. apply apart0.
  - intros b Hb. destruct (Z.eqb_spec b (data (nodes s x))) as [Eb|].
    + destruct (owned0 b) as (A & _); [rewrite Eb, U3; discriminate|]. split; [exact A|]. exists x. rewrite IS. auto.
    + destruct (owned0 b Hb) as (A1 & y & A2 & A3). split; [exact A1|]. exists y. rewrite IS. auto.
  - exact counter0.
  - intros l Hl. destruct (shape0 l Hl) as (A1 & A2). split; [intros y Hy; rewrite IS; auto|rewrite IS; auto].
Qed.
(** Segments compared node by node. *)
Lemma rel_ext pp sa s p ls f g : (forall x, f x = g x) -> rel pp sa s (Ref p ls f) -> rel pp sa s (Ref p ls g).
Proof.
  intros E R. assert (IS : forall y, is_segment (Ref p ls g) y = is_segment (Ref p ls f) y) by (intros y; unfold is_segment; cbn; rewrite E; reflexivity).
  destruct R. constructor; cbn [pool lists segment] in *; try assumption.
  - intros x H. apply blank0. rewrite E. exact H.
  - intros x c H. apply used0. rewrite E. exact H.
  - intros x y. rewrite !IS. apply apart0.
  - intros b H. destruct (owned0 b H) as (A & x & B & C). split; [exact A|]. exists x. rewrite IS. auto.
  - intros l H. destruct (shape0 l H) as (A & B). split; [intros x Hx; rewrite IS; auto|rewrite IS; auto].
Qed.

(** Shapes of changed lists. *)
Definition shaped (r : ref) (ls : list (list nat)) : Prop :=
  forall l, In l ls -> (forall x, In x (tl l) -> is_segment r x = true) /\ (is_segment r (hd 0 l) = true -> tl l = []).
Lemma shaped_drop r s ls : shaped r ls -> is_segment r s = true -> Forall (fun l => l <> []) ls -> shaped r (drop s ls).
Proof.
  intros S Ss F l Hl. apply drop_In in Hl as (l0 & I & -> & NE). destruct (S l0 I) as (A & B).
  destruct l0 as [|y l0]; [destruct NE; reflexivity|]. cbn [hd tl] in A, B. destruct (Nat.eq_dec y s) as [->|N].
  - rewrite (B Ss) in NE. cbn in NE. rewrite Nat.eqb_refl in NE. destruct NE. reflexivity.
  - rewrite without_cons_ne by exact N. cbn [hd tl]. split; [intros x Hx; apply without_In in Hx as (Hx & _); auto|]. intros H. rewrite (B H). reflexivity.
Qed.
Lemma shaped_single r x ls : shaped r ls -> shaped r ([x] :: ls).
Proof. intros S l [<-|H]; [cbn; split; [intros ? []|reflexivity]|apply S, H]. Qed.
Lemma shaped_at r x f ls : shaped r ls -> is_segment r x = false -> (forall l y, In y (f l) -> In y l \/ is_segment r y = true) -> shaped r (at_record x f ls).
Proof.
  intros S Nx F l Hl. unfold at_record in Hl. apply in_map_iff in Hl as (l0 & E & I). destruct (S l0 I) as (A & B).
  destruct (hd 0 l0 =? x); subst l; [|auto]. cbn [hd tl]. split; [|congruence]. intros y Hy. destruct (F _ _ Hy) as [H|H]; auto.
Qed.

(** * Operations that change links only *)
Lemma perm_in_lists pp sa s r p ls h : rel pp sa s r -> represents h ((pp :: p) :: ls) -> Permutation (concat (full pp r)) (concat ((pp :: p) :: ls)) ->
  p = pool r -> forall x, is_segment r x = true -> In x (concat ls).
Proof.
  intros R Rep P -> x Hx. pose proof (rel_segment _ _ _ _ R x Hx) as I. destruct (rel_in _ _ _ _ R x I) as (I1 & I2 & _).
  apply (Permutation_in _ P) in I1. cbn [concat] in I1. apply in_app_iff in I1 as [I1|I1]; [contradiction|exact I1].
Qed.
Lemma links_only pp sa s r h ls : rel pp sa s r -> represents h ((pp :: pool r) :: ls) -> Permutation (concat (full pp r)) (concat ((pp :: pool r) :: ls)) ->
  keeps (nodes s) h (concat (full pp r)) -> shaped r ls -> rel pp sa (set_nodes s h) (Ref (pool r) ls (segment r)).
Proof.
  intros R Rep P (K & _) S. apply rel_links; try assumption. apply (perm_in_lists pp sa s r (pool r) ls h R Rep P eq_refl).
Qed.

Lemma represents_data h p d rs : represents h rs -> represents (dataset h p d) rs.
Proof.
  apply represents_ext. intros y. unfold dataset, put. destruct (Nat.eqb_spec y p) as [->|]; auto.
Qed.
Lemma data_dataset h p d y : data (dataset h p d y) = if y =? p then d else data (h y).
Proof. unfold dataset, put. destruct (Nat.eqb_spec y p); reflexivity. Qed.
Lemma nullinit_single h x rs : represents h ([x] :: rs) -> represents (nullinit h x) ([x] :: rs).
Proof.
  intros R. unfold nullinit. apply represents_data. destruct (single_next h x rs R) as (A1 & A2 & A3). revert R. apply represents_ext. intros y.
  destruct (init_fields h x y) as (B1 & B2 & B3 & _). rewrite B1, B2, B3. destruct (Nat.eqb_spec y x) as [E|N]; [subst y|]; auto.
Qed.
Lemma data_nullinit h x y : data (nullinit h x y) = if y =? x then 0%Z else data (h y).
Proof.
  unfold nullinit. rewrite data_dataset. destruct (Nat.eqb_spec y x) as [->|]; [reflexivity|]. unfold init. rewrite data_set_root, data_set_prev, data_set_next. reflexivity.
Qed.

Section ops.
Context (fuel pp : nat) (sa : list nat) (F : length sa < fuel) (Z0 : ~ In 0 (pp :: sa)).
Set Default Proof Using "All".

Lemma remove_step s r x : rel pp sa s r -> is_segment r x = true ->
  exists s', segment_remove fuel s x = Some s' /\ rel pp sa s' (Ref (pool r) ([x] :: drop x (lists r)) (segment r)) /\ (forall y, data (nodes s' y) = data (nodes s y)) /\
    buffers s' = buffers s /\ fresh s' = fresh s.
Proof.
  intros R Sx. pose proof (rel_segment _ _ _ _ R x Sx) as I. destruct (rel_in _ _ _ _ R x I) as (I1 & I2 & _).
  destruct (remove_ok fuel (nodes s) x _ (links _ _ _ _ R) I1 (rel_len _ _ _ _ R _ F)) as (h & E & Rep & P & K).
  unfold segment_remove. rewrite E. cbn [bind]. eexists. split; [reflexivity|].
  assert (Q : Permutation (s_remove x (full pp r)) ((pp :: pool r) :: [x] :: drop x (lists r))).
  { unfold s_remove. change (detach x (full pp r)) with (drop x (full pp r)). unfold full. rewrite drop_pool by (exact I2 || discriminate). apply perm_swap. }
  split; [|split; [exact (proj1 K)|auto]].
  apply links_only; [exact R|apply (represents_perm _ _ _ Q), Rep|rewrite P; apply concat_perm, Q|exact K|].
  apply shaped_single, shaped_drop; [exact (shape _ _ _ _ R)|exact Sx|exact (rel_nonempty _ _ _ _ R)].
Qed.

Lemma append_step s r x y : rel pp sa s r -> is_record r x = true -> is_segment r y = true -> last (parts r x) 0 <> y ->
  exists s', append fuel s x y = Some s' /\ rel pp sa s' (Ref (pool r) (at_record x (fun l => l ++ [y]) (drop y (lists r))) (segment r)).
Proof.
  intros R Rx Sy NL. destruct (rel_record _ _ _ _ R x Rx) as (Ix & Nx & Ix'). pose proof (rel_segment _ _ _ _ R y Sy) as Iy.
  destruct (rel_in _ _ _ _ R x Ix') as (X1 & X2 & _). destruct (rel_in _ _ _ _ R y Iy) as (Y1 & Y2 & Y3).
  assert (NE : x <> y) by congruence.
  destruct (step_ok fuel (nodes s) (Enqueue x y) (full pp r) (links _ _ _ _ R)) as (h & E & Rep & P & K); [constructor; [exact X1|constructor; [exact Y1|constructor]]|exact (rel_len _ _ _ _ R _ F)|].
  cbn [step] in E. unfold append. destruct (enqueue fuel (nodes s) x y) as [h0|]; cbn [bind] in E |- *; [|discriminate]. injection E as ->.
  eexists. split; [reflexivity|].
  assert (LO : list_of x (full pp r) = x :: parts r x).
  { apply (list_of_unique (nodes s)); [exact (links _ _ _ _ R)|right; exact Ix|left; reflexivity]. }
  assert (L : last (x :: parts r x) 0 <> y). { destruct (parts r x) as [|z l] eqn:El; [exact NE|]. rewrite last_cons by discriminate. exact NL. }
  cbn [s_step fst] in Rep, P. rewrite LO in Rep, P.
  assert (Q : s_insert (last (x :: parts r x) 0) y (full pp r) = (pp :: pool r) :: at_record x (fun l => l ++ [y]) (drop y (lists r))).
  { unfold s_insert. destruct (Nat.eqb_spec (last (x :: parts r x) 0) y); [contradiction|]. change (detach y (full pp r)) with (drop y (full pp r)). unfold full.
    rewrite drop_pool by (exact Y2 || discriminate). cbn [map]. f_equal.
    - apply place_id. apply (disj_first (nodes s) _ (lists r)); [exact (links _ _ _ _ R)|]. apply in_concat. exists (x :: parts r x). split; [exact Ix|apply last_In; discriminate].
    - apply append_place; [exact (rel_nodup _ _ _ _ R)|exact Ix|exact NE|exact L]. }
  rewrite Q in Rep, P. apply links_only; try assumption.
  apply shaped_at; [apply shaped_drop; [exact (shape _ _ _ _ R)|exact Sy|exact (rel_nonempty _ _ _ _ R)]|exact Nx|].
  intros l z Hz. apply in_app_iff in Hz as [Hz|[<-|[]]]; auto.
Qed.

Lemma prepend_step s r x y : rel pp sa s r -> is_record r x = true -> is_segment r y = true ->
  exists s', prepend fuel s x y = Some s' /\ rel pp sa s' (Ref (pool r) (at_record x (fun l => y :: l) (drop y (lists r))) (segment r)).
Proof.
  intros R Rx Sy. destruct (rel_record _ _ _ _ R x Rx) as (Ix & Nx & Ix'). pose proof (rel_segment _ _ _ _ R y Sy) as Iy.
  destruct (rel_in _ _ _ _ R x Ix') as (X1 & X2 & _). destruct (rel_in _ _ _ _ R y Iy) as (Y1 & Y2 & Y3).
  assert (NE : x <> y) by congruence.
  destruct (step_ok fuel (nodes s) (Push x y) (full pp r) (links _ _ _ _ R)) as (h & E & Rep & P & K); [constructor; [exact X1|constructor; [exact Y1|constructor]]|exact (rel_len _ _ _ _ R _ F)|].
  cbn [step] in E. unfold prepend. destruct (push fuel (nodes s) x y) as [h0|]; cbn [bind] in E |- *; [|discriminate]. injection E as ->.
  eexists. split; [reflexivity|].
  assert (LO : list_of x (full pp r) = x :: parts r x).
  { apply (list_of_unique (nodes s)); [exact (links _ _ _ _ R)|right; exact Ix|left; reflexivity]. }
  cbn [s_step fst] in Rep, P. rewrite LO in Rep, P. cbn [hd] in Rep, P.
  assert (Q : s_insert x y (full pp r) = (pp :: pool r) :: at_record x (fun l => y :: l) (drop y (lists r))).
  { unfold s_insert. destruct (Nat.eqb_spec x y); [contradiction|]. change (detach y (full pp r)) with (drop y (full pp r)). unfold full.
    rewrite drop_pool by (exact Y2 || discriminate). cbn [map]. f_equal.
    - apply place_id. exact X2.
    - apply (prepend_place _ _ (parts r x)); [exact (rel_nodup _ _ _ _ R)|exact Ix|exact NE]. }
  rewrite Q in Rep, P. apply links_only; try assumption.
  apply shaped_at; [apply shaped_drop; [exact (shape _ _ _ _ R)|exact Sy|exact (rel_nonempty _ _ _ _ R)]|exact Nx|].
  intros l z [<-|Hz]; auto.
Qed.

(** The lists, seen from a segment by itself. *)
Lemma loose_lists s r y : rel pp sa s r -> In [y] (lists r) -> Forall (fun l => l = [y] \/ ~ In y l /\ l <> []) (lists r).
Proof.
  intros R I. apply Forall_forall. intros l Hl. destruct (in_dec Nat.eq_dec y l) as [H|H].
  - left. apply (unique_list (lists r) _ _ y (rel_nodup _ _ _ _ R)); [exact Hl|exact I|exact H|left; reflexivity].
  - right. split; [exact H|]. pose proof (rel_nonempty _ _ _ _ R) as NE. rewrite Forall_forall in NE. apply NE, Hl.
Qed.
Lemma in_drop s r p l y : rel pp sa s r -> In (p :: l) (lists r) -> In y l -> forall x, x <> p -> x <> y -> In (p :: without x l) (drop x (lists r)) /\ In y (without x l).
Proof.
  intros R I Y x N1 N2. split; [|apply without_In; auto]. apply drop_In. exists (p :: l). split; [exact I|]. rewrite without_cons_ne by auto. split; [reflexivity|discriminate].
Qed.

Lemma insert_step s r x y : rel pp sa s r -> onrecord r x = true -> loose r y = true ->
  exists s', insert_after fuel s x y = Some s' /\ rel pp sa s' (Ref (pool r) (map (after x y) (drop y (lists r))) (segment r)).
Proof.
  intros R Ox Ly. destruct (rel_onrecord _ _ _ _ R x Ox) as (Sx & p & l & Ip & Il & Np). destruct (rel_loose _ _ _ _ R y Ly) as (Sy & Iy).
  pose proof (rel_segment _ _ _ _ R x Sx) as Ix. pose proof (rel_segment _ _ _ _ R y Sy) as Iy'.
  destruct (rel_in _ _ _ _ R x Ix) as (X1 & X2 & _). destruct (rel_in _ _ _ _ R y Iy') as (Y1 & Y2 & Y3).
  destruct (splice_ok fuel (nodes s) x y _ (links _ _ _ _ R) X1 Y1 (rel_len _ _ _ _ R _ F)) as (h & E & Rep & P & K).
  unfold insert_after. rewrite E. cbn [bind]. eexists. split; [reflexivity|].
  assert (LO : list_of y (full pp r) = [y]).
  { apply (list_of_unique (nodes s)); [exact (links _ _ _ _ R)|right; exact Iy|left; reflexivity]. }
  assert (NE : x <> y).
  { intros ->. assert (EQ : p :: l = [y]) by (apply (unique_list (lists r) _ _ y (rel_nodup _ _ _ _ R)); [exact Ip|exact Iy|right; exact Il|left; reflexivity]). congruence. }
  assert (Q : s_splice x y (full pp r) = (pp :: pool r) :: map (after x y) (drop y (lists r))).
  { unfold s_splice. rewrite LO. cbn [mem existsb]. destruct (Nat.eqb_spec x y); [contradiction|]. cbn [orb]. unfold turn. cbn [from upto]. rewrite Nat.eqb_refl. cbn [app].
    rewrite others_drop.
    - unfold full. rewrite drop_pool by (exact Y2 || discriminate). cbn [map]. f_equal; [apply place_id, X2|]. apply map_ext. intros m. symmetry. apply after_place.
    - constructor; [right; split; [exact Y2|discriminate]|apply (loose_lists s r y R Iy)]. }
  rewrite Q in Rep, P. apply links_only; try assumption.
  intros m Hm. apply in_map_iff in Hm as (m0 & <- & Hm). assert (Hm' := Hm). apply drop_In in Hm' as (m1 & I1 & E1 & NE1).
  destruct (shaped_drop r y (lists r) (shape _ _ _ _ R) Sy (rel_nonempty _ _ _ _ R) m0 Hm) as (A & B).
  destruct m0 as [|z m0]; [congruence|]. unfold after. cbn [flat_map]. destruct (Nat.eqb_spec z x) as [->|Nz].
  - exfalso. assert (Em : m1 = p :: l).
    { apply (unique_list (lists r) _ _ x (rel_nodup _ _ _ _ R)); [exact I1|exact Ip| |right; exact Il]. assert (Q1 : In x (without y m1)) by (rewrite <- E1; left; reflexivity). apply without_In in Q1. tauto. }
    subst m1. rewrite without_cons_ne in E1 by congruence. congruence.
  - cbn [app hd tl] in *. split.
    + intros w Hw. apply in_flat_map in Hw as (v & V1 & V2). destruct (Nat.eqb_spec v x) as [->|]; cbn in V2; [destruct V2 as [<-|[<-|[]]]; auto|destruct V2 as [<-|[]]; auto].
    + intros H. rewrite (B H). reflexivity.
Qed.

Lemma replace_step s r x y : rel pp sa s r -> onrecord r x = true -> loose r y = true ->
  exists s', replace_with fuel s x y = Some s' /\ rel pp sa s' (Ref (pool r) ([x] :: map (instead x y) (drop y (lists r))) (segment r)).
Proof.
  intros R Ox Ly. destruct (rel_onrecord _ _ _ _ R x Ox) as (Sx & p & l & Ip & Il & Np). destruct (rel_loose _ _ _ _ R y Ly) as (Sy & Iy).
  pose proof (rel_segment _ _ _ _ R x Sx) as Ix. pose proof (rel_segment _ _ _ _ R y Sy) as Iy'.
  destruct (rel_in _ _ _ _ R x Ix) as (X1 & X2 & _). destruct (rel_in _ _ _ _ R y Iy') as (Y1 & Y2 & Y3).
  destruct (replace_ok fuel (nodes s) x y _ (links _ _ _ _ R) X1 Y1 (rel_len _ _ _ _ R _ F)) as (h & E & Rep & P & K).
  unfold replace_with. rewrite E. cbn [bind]. eexists. split; [reflexivity|].
  assert (NE : x <> y).
  { intros ->. assert (EQ : p :: l = [y]) by (apply (unique_list (lists r) _ _ y (rel_nodup _ _ _ _ R)); [exact Ip|exact Iy|right; exact Il|left; reflexivity]). congruence. }
  assert (Q : Permutation (s_replace x y (full pp r)) ((pp :: pool r) :: [x] :: map (instead x y) (drop y (lists r)))).
  { unfold s_replace, s_remove, s_insert. destruct (Nat.eqb_spec x y); [contradiction|]. change (detach y (full pp r)) with (drop y (full pp r)).
    unfold full. rewrite drop_pool by (exact Y2 || discriminate). rewrite replace_place; [|exact NE|constructor; [discriminate|apply drop_nonempty]].
    cbn [map]. change ((if pp =? x then y else pp) :: map (fun z => if z =? x then y else z) (pool r)) with (instead x y (pp :: pool r)). rewrite instead_id by exact X2. apply perm_swap. }
  apply links_only; [exact R|apply (represents_perm _ _ _ Q), Rep|rewrite P; apply concat_perm, Q|exact K|].
  apply shaped_single. intros m Hm. apply in_map_iff in Hm as (m0 & <- & Hm). assert (Hm' := Hm). apply drop_In in Hm' as (m1 & I1 & E1 & NE1).
  destruct (shaped_drop r y (lists r) (shape _ _ _ _ R) Sy (rel_nonempty _ _ _ _ R) m0 Hm) as (A & B).
  destruct m0 as [|z m0]; [congruence|]. unfold instead. cbn [map hd tl] in *. destruct (Nat.eqb_spec z x) as [->|Nz].
  - exfalso. assert (Em : m1 = p :: l).
    { apply (unique_list (lists r) _ _ x (rel_nodup _ _ _ _ R)); [exact I1|exact Ip| |right; exact Il]. assert (Q1 : In x (without y m1)) by (rewrite <- E1; left; reflexivity). apply without_In in Q1. tauto. }
    subst m1. rewrite without_cons_ne in E1 by congruence. congruence.
  - split.
    + intros w Hw. apply in_map_iff in Hw as (v & <- & V). destruct (v =? x); auto.
    + intros H. rewrite (B H). reflexivity.
Qed.

(** * The pool *)
Lemma get_step s r : rel pp sa s r ->
  exists s', pool_get fuel s pp = Some (s', hd 0 (pool r)) /\ buffers s' = buffers s /\ fresh s' = fresh s /\ (forall y, data (nodes s' y) = data (nodes s y)) /\
    match pool r with [] => s' = s | x :: p => rel pp sa s' (Ref p ([x] :: lists r) (segment r)) end.
Proof.
  intros R. destruct (step_ok fuel (nodes s) (Dequeue pp) (full pp r) (links _ _ _ _ R)) as (h & E & Rep & P & K); [constructor; [left; reflexivity|constructor]|exact (rel_len _ _ _ _ R _ F)|].
  cbn [step s_step] in E, Rep, P. unfold pool_get. pose proof (list_of_head (nodes s) pp (pp :: pool r) (lists r) (links _ _ _ _ R) (or_introl eq_refl)) as LO.
  change ((pp :: pool r) :: lists r) with (full pp r) in LO. rewrite LO in E, Rep, P.
  destruct (pool r) as [|x p] eqn:Ep; cbn [fst snd] in E, Rep, P.
  - rewrite E. cbn [bind hd]. unfold dequeue in E. destruct (isempty (nodes s) (root (nodes s pp))) eqn:Em.
    + injection E as <-. exists s. destruct s. auto.
    + exfalso. rewrite (root_list (nodes s) pp _ (links _ _ _ _ R)) in Em by (left; reflexivity).
      rewrite LO in Em. cbn [hd] in Em.
      assert (RR : represents (nodes s) ([pp] :: lists r)) by (pose proof (links _ _ _ _ R) as L; unfold full in L; rewrite Ep in L; exact L).
      destruct (single_next (nodes s) pp (lists r) RR) as (A & _). unfold isempty in Em. rewrite A, Nat.eqb_refl in Em. discriminate.
  - rewrite E. cbn [bind hd]. eexists. split; [reflexivity|]. split; [reflexivity|]. split; [reflexivity|]. split; [exact (proj1 K)|].
    assert (Nx : ~ In x (concat (lists r)) /\ ~ In x (pp :: p)).
    { destruct (links _ _ _ _ R) as (N & _). unfold full in N. rewrite Ep in N. cbn [concat] in N. change (pp :: x :: p) with ([pp] ++ x :: p) in N. rewrite <- app_assoc in N. cbn [app] in N.
      pose proof (NoDup_remove_2 [pp] (p ++ concat (lists r)) x N) as D. cbn [app] in D. cbn [In] in D |- *. rewrite in_app_iff in D. tauto. }
    assert (Q : Permutation (s_remove x (full pp r)) ((pp :: p) :: [x] :: lists r)).
    { unfold s_remove, full. rewrite Ep. pose proof (links _ _ _ _ R) as L. unfold full in L. rewrite Ep in L. pose proof (detach_first (nodes s) x [pp] p (lists r) L) as D. cbn [app ne] in D. rewrite D. apply perm_swap. }
    apply rel_links; [exact R|apply (represents_perm _ _ _ Q), Rep| |exact (proj1 K)| |].
    + rewrite P. apply concat_perm, Q.
    + intros y Hy. cbn. right. apply (rel_segment _ _ _ _ R y Hy).
    + apply shaped_single. exact (shape _ _ _ _ R).
Qed.

(** A node by itself goes to the back of the pool. *)
Lemma put_links s p x ls : represents (nodes s) ((pp :: p) :: [x] :: ls) -> length (concat ((pp :: p) :: [x] :: ls)) <= fuel ->
  exists s', pool_put fuel s pp x = Some s' /\ represents (nodes s') ((pp :: p ++ [x]) :: ls) /\ (forall y, data (nodes s' y) = if y =? x then 0%Z else data (nodes s y)) /\
    buffers s' = buffers s /\ fresh s' = fresh s.
Proof.
  intros Rep L. set (h := nullinit (nodes s) x).
  assert (Rh : represents h ((pp :: p) :: [x] :: ls)).
  { apply (represents_perm _ ([x] :: (pp :: p) :: ls)); [apply perm_swap|]. apply nullinit_single. apply (represents_perm _ ((pp :: p) :: [x] :: ls)); [apply perm_swap|exact Rep]. }
  destruct (enqueue_step fuel h pp p ([x] :: ls) pp x Rh (or_introl eq_refl)) as (h' & E & Rep'); [left; reflexivity|exact L|].
  destruct (step_ok fuel h (Enqueue pp x) _ Rh) as (h2 & E2 & _ & _ & K); [constructor; [left; reflexivity|constructor; [apply in_rest; left; reflexivity|constructor]]|exact L|].
  cbn [step] in E, E2. unfold pool_put. fold h. destruct (enqueue fuel h pp x) as [h3|]; cbn [bind] in *; [|discriminate].
  assert (h3 = h') by congruence. assert (h2 = h') by congruence. subst h3 h2. eexists. split; [reflexivity|]. cbn [set_nodes nodes buffers fresh].
  split; [|split; [|auto]].
  - assert (D : detach x ([x] :: ls) = ls).
    { assert (Q : represents h ([x] :: (pp :: p) :: ls)) by (apply (represents_perm _ ((pp :: p) :: [x] :: ls)); [apply perm_swap|exact Rh]).
      assert (Q' : represents h ([x] :: ls)). { destruct Q as (N & Fo). split; [cbn in N |- *; inversion N as [|? ? X Y]; subst; constructor; [intros H; apply X; right; apply in_or_app; right; exact H|exact (nodup_r _ _ (nodup_r [pp] _ Y))]|]. constructor; [exact (Forall_inv Fo)|exact (Forall_inv_tail (Forall_inv_tail Fo))]. }
      pose proof (detach_first h x [] [] ls Q') as D. exact D. }
    rewrite D in Rep'. exact Rep'.
  - intros y. rewrite (proj1 K). unfold h. apply data_nullinit.
Qed.

(** Freeing a segment. *)
Lemma free_step s r x : rel pp sa s r -> is_segment r x = true ->
  exists s', segment_free fuel s pp x = Some s' /\ rel pp sa s' (Ref (pool r ++ [x]) (drop x (lists r)) (set (segment r) x None)).
Proof.
  intros R Sx. pose proof (rel_segment _ _ _ _ R x Sx) as I. destruct (rel_in _ _ _ _ R x I) as (I1 & I2 & I3).
  destruct (proj1 (is_segment_true r x) Sx) as (c & Hc). destruct (used _ _ _ _ R x c Hc) as (U1 & U2 & U3 & U4).
  unfold segment_free, buffer_free. destruct (Z.eqb_spec (data (nodes s x)) 0) as [|_]; [contradiction|]. rewrite U3. cbn [bind].
  unfold segment_fini. cbn [nodes set_buffer].
  destruct (remove_ok fuel (nodes s) x _ (links _ _ _ _ R) I1 (rel_len _ _ _ _ R _ F)) as (h & E & Rep & P & K). rewrite E. cbn [bind].
  assert (Q : Permutation (s_remove x (full pp r)) ((pp :: pool r) :: [x] :: drop x (lists r))).
  { unfold s_remove. change (detach x (full pp r)) with (drop x (full pp r)). unfold full. rewrite drop_pool by (exact I2 || discriminate). apply perm_swap. }
  apply (represents_perm _ _ _ Q) in Rep. assert (P' := P). rewrite (concat_perm _ _ Q) in P'.
  destruct (put_links (set_nodes (set_buffer s (data (nodes s x)) None) (dataset h x 0%Z)) (pool r) x (drop x (lists r))) as (s' & E2 & Rep2 & D2 & B2 & F2).
  - cbn [nodes set_nodes]. apply represents_data, Rep.
  - rewrite <- (Permutation_length P'). exact (rel_len _ _ _ _ R _ F).
  - exists s'. split; [exact E2|]. cbn [nodes buffers fresh set_nodes set_buffer] in D2, B2, F2.
    assert (D : forall y, data (nodes s' y) = if y =? x then 0%Z else data (nodes s y)).
    { intros y. rewrite D2, data_dataset. destruct (y =? x); [reflexivity|]. apply (proj1 K). }
    assert (IS : forall y, is_segment (Ref (pool r ++ [x]) (drop x (lists r)) (set (segment r) x None)) y = negb (y =? x) && is_segment r y).
    { intros y. unfold is_segment, set. cbn [segment]. destruct (y =? x); reflexivity. }
    assert (PS : Permutation ((pool r ++ [x]) ++ concat (drop x (lists r))) sa).
    { rewrite <- (same _ _ _ _ R). unfold full in P'. cbn in P'. apply Permutation_cons_inv in P'. rewrite P', <- app_assoc. reflexivity. }
    constructor; cbn [pool lists]; [exact Rep2|exact PS| | | | | |].
    + intros y H Hy. rewrite D. destruct (Nat.eqb_spec y x) as [->|N]; [reflexivity|]. apply (blank _ _ _ _ R); [|exact Hy]. cbn in H. unfold set in H. destruct (Nat.eqb_spec y x); [contradiction|exact H].
    + intros y d H. cbn in H. unfold set in H. destruct (Nat.eqb_spec y x) as [|N]; [discriminate H|]. destruct (used _ _ _ _ R y d H) as (A1 & A2 & A3 & A4).
      rewrite D. destruct (Nat.eqb_spec y x); [contradiction|]. split; [|split; [exact A2|split; [|exact A4]]].
      * destruct (rel_in _ _ _ _ R y A1) as (J1 & J2 & _). apply (Permutation_in _ P') in J1. cbn [concat] in J1. apply in_app_iff in J1 as [J1|J1]; [contradiction|].
        destruct J1 as [J1|J1]; [congruence|exact J1].
      * rewrite B2. destruct (Z.eqb_spec (data (nodes s y)) (data (nodes s x))) as [E3|]; [|exact A3]. exfalso. apply N, (apart _ _ _ _ R); [apply is_segment_true; eauto|exact Sx|exact E3].
    + intros y z. rewrite !IS, !D. destruct (Nat.eqb_spec y x), (Nat.eqb_spec z x); cbn; try discriminate. apply (apart _ _ _ _ R).
    + intros b Hb. rewrite B2 in Hb. destruct (Z.eqb_spec b (data (nodes s x))) as [Eb|Nb]; [congruence|]. destruct (owned _ _ _ _ R b Hb) as (A1 & y & A2 & A3).
      rewrite F2. split; [exact A1|]. exists y. assert (Ny : y <> x) by congruence. rewrite IS, D. destruct (Nat.eqb_spec y x); [contradiction|]. auto.
    + rewrite F2. exact (counter _ _ _ _ R).
    + intros l Hl. destruct (shaped_drop r x (lists r) (shape _ _ _ _ R) Sx (rel_nonempty _ _ _ _ R) l Hl) as (A & B). assert (Nl : ~ In x l).
      { apply drop_In in Hl as (l0 & _ & -> & _). intros H. apply without_In in H. tauto. }
      split.
      * intros y Hy. rewrite IS. destruct (Nat.eqb_spec y x) as [->|]; [exfalso; apply Nl; destruct l; [destruct Hy|right; exact Hy]|apply A, Hy].
      * rewrite IS. intros H. apply andb_prop in H as (_ & H). apply B, H.
Qed.
Lemma record_segment_free_step s r x : rel pp sa s r -> is_segment r x = true ->
  exists s', record_segment_free fuel s pp x = Some s' /\ rel pp sa s' (Ref (pool r ++ [x]) (drop x (lists r)) (set (segment r) x None)).
Proof.
  intros R Sx. destruct (remove_step s r x R Sx) as (s1 & E1 & R1 & _). unfold record_segment_free. rewrite E1. cbn [bind].
  destruct (free_step s1 _ x R1 Sx) as (s2 & E2 & R2). exists s2. split; [exact E2|]. cbn [pool lists segment] in R2.
  assert (D : drop x ([x] :: drop x (lists r)) = drop x (lists r)).
  { unfold drop at 1. cbn. rewrite Nat.eqb_refl. cbn. change (drop x (drop x (lists r)) = drop x (lists r)). apply detach_id; [|apply drop_nonempty].
    intros H. apply in_concat in H as (l & H1 & H2). apply drop_In in H1 as (l0 & _ & -> & _). apply without_In in H2. tauto. }
  rewrite D in R2. exact R2.
Qed.
End ops.
