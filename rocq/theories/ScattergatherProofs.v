From Coq Require Import ZArith List Bool Arith Lia Permutation.
From Verif Require Import CUtil ListModel ListSpec ListProofs ListProofs2 ListProofs3 ListProofs4 ListProofs6 ScattergatherModel ScattergatherSpec.
Import ListNotations.
Local Open Scope nat_scope.

(** * The operations of the specification, in terms of those of lists *)
Lemma drop_detach x ls : drop x ls = detach x ls. Proof. reflexivity. Qed.
Lemma has_mem x l : has x l = mem x l. Proof. reflexivity. Qed.
Lemma has_In x l : has x l = true <-> In x l. Proof. apply mem_In. Qed.
Lemma has_not x l : has x l = false <-> ~ In x l. Proof. apply mem_not. Qed.

Lemma unique_list (ls : list (list nat)) l1 l2 x : NoDup (concat ls) -> In l1 ls -> In l2 ls -> In x l1 -> In x l2 -> l1 = l2.
Proof.
  intros N I1 I2 X1 X2. apply in_split in I1 as (A & B & ->). apply nodup_mid in N. pose proof (nodup_disj _ _ x N X1) as D.
  apply in_app_iff in I2 as [I2|[I2|I2]]; [|exact I2|]; exfalso; apply D, in_concat; exists l2; rewrite in_app_iff; auto.
Qed.
Lemma drop_In s ls l : In l (drop s ls) <-> exists l0, In l0 ls /\ l = without s l0 /\ l <> [].
Proof.
  unfold drop. rewrite filter_In, in_map_iff. split.
  - intros ((l0 & E & I) & NE). exists l0. split; [exact I|]. split; [symmetry; exact E|]. destruct l; discriminate.
  - intros (l0 & I & E & NE). split; [exists l0; auto|]. destruct l; congruence.
Qed.
Lemma without_In s l y : In y (without s l) <-> In y l /\ y <> s.
Proof. unfold without. rewrite filter_In. destruct (Nat.eqb_spec y s); cbn; intuition congruence. Qed.
Lemma without_cons_ne s x l : x <> s -> without s (x :: l) = x :: without s l.
Proof. intros H. unfold without. cbn. destruct (Nat.eqb_spec x s); [contradiction|reflexivity]. Qed.
Lemma without_app s a b : without s (a ++ b) = without s a ++ without s b.
Proof. apply filter_app. Qed.
Lemma last_without s l d : last l d <> s -> last (without s l) d = last l d.
Proof.
  induction l as [|x l IH] using rev_ind; intros H; [reflexivity|]. rewrite last_last in *. rewrite without_app.
  unfold without at 2. cbn. destruct (Nat.eqb_spec x s); [contradiction|]. cbn. apply last_last.
Qed.

Lemma drop_nodup s ls : NoDup (concat ls) -> NoDup (concat (drop s ls)).
Proof.
  unfold drop. induction ls as [|l ls IH]; intros N; [constructor|]. cbn in N |- *.
  assert (D : forall y, In y l -> ~ In y (concat ls)) by (intros y H; apply (nodup_disj l ls y N H)).
  pose proof (nodup_l _ _ N) as N1. pose proof (IH (nodup_r _ _ N)) as N2.
  assert (X : NoDup (filter (fun y => negb (y =? s)) l ++ concat (drop s ls))).
  { clear IH N. induction l as [|y l IH]; [exact N2|]. cbn. inversion N1 as [|? ? Y Y']; subst.
    assert (IH' := IH (fun z Hz => D z (or_intror Hz)) Y'). destruct (y =? s); cbn; [exact IH'|]. constructor; [|exact IH'].
    intros Z. apply in_app_iff in Z as [Z|Z]; [apply filter_In in Z as (Z & _); contradiction|]. apply (D y (or_introl eq_refl)), (nodup_detach s), Z. }
  destruct (filter _ l) eqn:E; [exact X|exact X].
Qed.

(** Appending. *)
Lemma append_place ls x l s : NoDup (concat ls) -> In (x :: l) ls -> x <> s -> last (x :: l) 0 <> s ->
  map (place (last (x :: l) 0) [s]) (drop s ls) = at_record x (fun l => l ++ [s]) (drop s ls).
Proof.
  intros N I NX NL. apply map_ext_in. intros m Hm. apply drop_In in Hm as (l0 & I0 & -> & NE).
  destruct (Nat.eqb_spec (hd 0 (without s l0)) x) as [E|NEx].
  - assert (X : In x (without s l0)) by (rewrite <- E; apply hd_In, NE). apply without_In in X as (X & _).
    assert (El : l0 = x :: l) by (apply (unique_list ls _ _ x N I0 I X); left; reflexivity). subst l0.
    rewrite without_cons_ne by exact NX. cbn [tl]. pose proof (last_without s _ _ NL) as LW. rewrite without_cons_ne in LW by exact NX. rewrite <- LW.
    destruct (exists_last (l := x :: without s l) ltac:(discriminate)) as (m & b & Eb). rewrite Eb, last_last.
    assert (Nm : NoDup (m ++ [b])).
    { rewrite <- Eb, <- without_cons_ne by exact NX. apply NoDup_filter. apply in_split in I as (A & B & EI). rewrite EI in N. exact (nodup_part A _ B N). }
    rewrite (place_mid b [s] m [] Nm). change (x :: without s l ++ [s]) with ((x :: without s l) ++ [s]). rewrite Eb, <- app_assoc. reflexivity.
  - apply place_id. intros Z. apply without_In in Z as (Z & _).
    assert (El : l0 = x :: l) by (apply (unique_list ls _ _ _ N I0 I Z), last_In; discriminate). subst l0.
    rewrite without_cons_ne in NEx by exact NX. apply NEx. reflexivity.
Qed.
(** Prepending. *)
Lemma prepend_place ls x l s : NoDup (concat ls) -> In (x :: l) ls -> x <> s ->
  map (place x [s]) (drop s ls) = at_record x (fun l => s :: l) (drop s ls).
Proof.
  intros N I NX. apply map_ext_in. intros m Hm. apply drop_In in Hm as (l0 & I0 & -> & NE).
  assert (Nl : NoDup l0) by (apply in_split in I0 as (A & B & EI); rewrite EI in N; exact (nodup_part A _ B N)).
  destruct (Nat.eqb_spec (hd 0 (without s l0)) x) as [E|NEx].
  - assert (X : In x (without s l0)) by (rewrite <- E; apply hd_In, NE). apply without_In in X as (X & _).
    assert (El : l0 = x :: l) by (apply (unique_list ls _ _ x N I0 I X); left; reflexivity). subst l0.
    rewrite without_cons_ne by exact NX. cbn [tl]. pose proof (place_mid x [s] [] (without s l)) as P. cbn [app] in P. apply P.
    rewrite <- without_cons_ne by exact NX. apply NoDup_filter, Nl.
  - apply place_id. intros Z. apply without_In in Z as (Z & _).
    assert (El : l0 = x :: l) by (apply (unique_list ls _ _ _ N I0 I Z); left; reflexivity). subst l0.
    rewrite without_cons_ne in NEx by exact NX. apply NEx. reflexivity.
Qed.
(** Inserting. *)
Lemma after_place p s l : after p s l = place p [s] l.
Proof. unfold after, place. apply flat_map_ext. intros y. destruct (Nat.eqb_spec y p) as [->|]; reflexivity. Qed.
Lemma others_drop s ls : Forall (fun l => l = [s] \/ ~ In s l /\ l <> []) ls -> others s ls = drop s ls.
Proof.
  unfold others, drop. induction 1 as [|l ls [-> | (H1 & H2)] _ IH]; [reflexivity| |].
  - cbn. rewrite Nat.eqb_refl. cbn. exact IH.
  - cbn [map filter]. change (filter (fun y => negb (y =? s)) l) with (without s l). rewrite (without_id s l H1), (proj2 (mem_not s l) H1). cbn [negb].
    destruct l; [congruence|]. f_equal. exact IH.
Qed.
(** Replacing. *)
Lemma instead_place p s l : p <> s -> without p (place p [s] l) = instead p s l.
Proof.
  intros NE. induction l as [|y l IH]; [reflexivity|]. unfold place, instead in *. cbn [flat_map map].
  destruct (Nat.eqb_spec y p) as [->|N].
  - rewrite without_app. unfold without at 1. cbn. rewrite Nat.eqb_refl. destruct (Nat.eqb_spec s p); [congruence|]. cbn. f_equal. exact IH.
  - rewrite without_app. unfold without at 1. cbn. destruct (Nat.eqb_spec y p); [contradiction|]. cbn. f_equal. exact IH.
Qed.
Lemma replace_place p s ls : p <> s -> Forall (fun l => l <> []) ls -> detach p (map (place p [s]) ls) = map (instead p s) ls.
Proof.
  intros NE F. unfold detach. rewrite map_map. rewrite (map_ext (fun l => without p (place p [s] l)) (instead p s)) by (intros l; apply instead_place, NE).
  apply filter_all. apply Forall_map. revert F. apply Forall_impl. intros l H. destruct l; [congruence|reflexivity].
Qed.
Lemma instead_id p s l : ~ In p l -> instead p s l = l.
Proof. intros H. unfold instead. rewrite <- (map_id l) at 2. apply map_ext_in. intros y Hy. destruct (Nat.eqb_spec y p) as [->|]; [contradiction|reflexivity]. Qed.
Lemma drop_nonempty s ls : Forall (fun l => l <> []) (drop s ls).
Proof. apply Forall_forall. intros l H. apply drop_In in H as (_ & _ & _ & H). exact H. Qed.
Lemma drop_pool s r ls : ~ In s r -> r <> [] -> drop s (r :: ls) = r :: drop s ls.
Proof.
  intros H NE. unfold drop. cbn [map filter]. change (filter (fun y => negb (y =? s)) r) with (without s r). rewrite without_id by exact H. destruct r; [congruence|reflexivity].
Qed.
Lemma at_record_id x f ls : ~ In x (concat ls) -> Forall (fun l => l <> []) ls -> at_record x f ls = ls.
Proof.
  intros H F. unfold at_record. rewrite <- (map_id ls) at 2. apply map_ext_in. intros l Hl. rewrite Forall_forall in F.
  destruct (Nat.eqb_spec (hd 0 l) x) as [E|]; [|reflexivity]. exfalso. apply H, in_concat. exists l. split; [exact Hl|]. rewrite <- E. apply hd_In, F, Hl.
Qed.
Lemma at_record_mid x f A l B : NoDup (concat (A ++ (x :: l) :: B)) -> Forall (fun l => l <> []) (A ++ B) ->
  at_record x f (A ++ (x :: l) :: B) = A ++ (x :: f l) :: B.
Proof.
  intros N F. apply nodup_mid in N. pose proof (nodup_disj _ _ x N (or_introl eq_refl)) as D. rewrite concat_app, in_app_iff in D. apply Forall_app in F as (F1 & F2).
  unfold at_record. rewrite map_app. cbn [map hd tl]. rewrite Nat.eqb_refl.
  pose proof (at_record_id x f A ltac:(tauto) F1) as E1. pose proof (at_record_id x f B ltac:(tauto) F2) as E2. unfold at_record in E1, E2. rewrite E1, E2. reflexivity.
Qed.

(** * Records and segments of the specification *)
Lemma is_segment_true r x : is_segment r x = true <-> exists c, segment r x = Some c.
Proof. unfold is_segment. destruct (segment r x); split; [eauto|reflexivity|discriminate|intros (? & ?); discriminate]. Qed.
Lemma is_segment_false r x : is_segment r x = false <-> segment r x = None.
Proof. unfold is_segment. destruct (segment r x); split; congruence. Qed.
Lemma head_list r x : Forall (fun l => l <> []) (lists r) -> existsb (fun l => hd 0 l =? x) (lists r) = true -> In (x :: parts r x) (lists r).
Proof.
  intros F H. unfold parts. rewrite Forall_forall in F. destruct (find (fun l => hd 0 l =? x) (lists r)) as [l|] eqn:E.
  - apply find_some in E as (I & E). apply Nat.eqb_eq in E. specialize (F l I). destruct l as [|y l]; [congruence|]. cbn in E. subst y. exact I.
  - exfalso. apply existsb_exists in H as (l & I & H). rewrite (find_none _ _ E l I) in H. discriminate.
Qed.
Lemma parts_unique r x l : NoDup (concat (lists r)) -> Forall (fun l => l <> []) (lists r) -> In (x :: l) (lists r) -> parts r x = l.
Proof.
  intros N F I. assert (H : existsb (fun l => hd 0 l =? x) (lists r) = true) by (apply existsb_exists; exists (x :: l); split; [exact I|apply Nat.eqb_refl]).
  pose proof (head_list r x F H) as I2. assert (E : x :: parts r x = x :: l) by (apply (unique_list _ _ _ x N I2 I); left; reflexivity). congruence.
Qed.
Lemma whole_list r x : In x (concat (lists r)) -> In (whole r x) (lists r) /\ In x (whole r x).
Proof.
  intros H. unfold whole. destruct (find (has x) (lists r)) as [l|] eqn:E.
  - apply find_some in E as (I & E). apply has_In in E. auto.
  - exfalso. apply in_concat in H as (l & I & H). apply has_In in H. rewrite (find_none _ _ E l I) in H. discriminate.
Qed.
Lemma whole_list_of r x : whole r x = list_of x (lists r). Proof. reflexivity. Qed.
