From Coq Require Import ZArith List Bool Lia Arith.
From Verif Require Import CInt CUtil DiskModel ObservationModel ObservationSpec.
Import ListNotations.
Local Open Scope Z_scope.

(** * Writing in parts *)

Definition flushed (f : list Z) (p : pending) : list Z := fold_left (fun f ol => put (fst ol) (snd ol) f) p f.

Lemma put_length_front o f : length (firstn o f ++ repeat 0 (o - length f)) = o.
Proof. rewrite app_length, firstn_length, repeat_length. lia. Qed.
Lemma skipn_skipn_ {A} : forall a b (l : list A), skipn a (skipn b l) = skipn (a + b) l.
Proof. intros a b. induction b as [|b IH]; intros l; [rewrite Nat.add_0_r; reflexivity|]. rewrite Nat.add_succ_r. destruct l; [rewrite !skipn_nil; reflexivity|]. cbn [skipn]. apply IH. Qed.
Lemma put_split o l f k : (k <= length l)%nat -> put (o + k) (skipn k l) (put o (firstn k l) f) = put o l f.
Proof.
  intros K. unfold put at 1. set (A := firstn o f ++ repeat 0 (o - length f)). assert (LA : length A = o) by apply put_length_front.
  assert (E : put o (firstn k l) f = (A ++ firstn k l) ++ skipn (o + k) f) by (unfold put, A; rewrite firstn_length, Nat.min_l by exact K; rewrite <- !app_assoc; reflexivity). rewrite E.
  assert (LB : length (A ++ firstn k l) = (o + k)%nat) by (rewrite app_length, firstn_length, LA; lia).
  rewrite firstn_app, LB, Nat.sub_diag. cbn [firstn]. rewrite app_nil_r, <- LB, firstn_all, LB. rewrite (app_length (A ++ firstn k l)), LB. replace (o + k - (o + k + length (skipn (o + k) f)))%nat with O by lia. cbn [repeat app].
  rewrite (skipn_app _ (A ++ firstn k l)), LB, (skipn_all2 (A ++ firstn k l)) by (rewrite LB; lia). cbn [app]. rewrite skipn_skipn_, skipn_length.
  replace (o + k + (length l - k) - (o + k) + (o + k))%nat with (o + length l)%nat by lia. unfold put. rewrite <- (firstn_skipn k l) at 4. unfold A. rewrite <- !app_assoc. reflexivity.
Qed.
Lemma transfers_ok d i p k d' p' : transfers d i p k = Some (d', p') -> entry d' = entry d /\ spare d' = spare d /\ (forall j, j <> i -> data d' j = data d j) /\ flushed (data d' i) p' = flushed (data d i) p.
Proof.
  unfold transfers. destruct p as [|(o, l) p]; [discriminate|]. destruct ((0 <? k) && (k <=? length l))%nat eqn:G; [|discriminate]. apply andb_true_iff in G as (_ & G). apply Nat.leb_le in G. intros E. injection E as <- <-. cbn [d_write entry spare data]. rewrite Z.eqb_refl.
  split; [reflexivity|]. split; [reflexivity|]. split; [intros j N; destruct (Z.eqb_spec j i); [contradiction|reflexivity]|].
  destruct (Nat.eqb_spec k (length l)) as [->|N]; unfold flushed; cbn [fold_left fst snd]; [rewrite firstn_all; reflexivity|]. rewrite put_split by exact G. reflexivity.
Qed.
Lemma flushed_snoc f p o l : flushed f (p ++ [(o, l)]) = put o l (flushed f p). Proof. unfold flushed. rewrite fold_left_app. reflexivity. Qed.

(** * The invariant *)

Fixpoint owned (p : pc) : option (Z * Z) :=
  match p with
  | Made n i | Open n i _ _ | Closing n i _ _ | Renaming n i _ | Dropping n i _ | Unlinking n i | Stamping n i _ _ | Flushing n i _ _ | Linking n i _ _ => Some (n, i)
  | Leaving p _ _ => owned p
  | _ => None
  end.
Fixpoint content (d : disk) (p : pc) : Prop :=
  match p with
  | Made n i => data d i = []
  | Open n i p g | Closing n i p g | Stamping n i p g | Flushing n i p g | Linking n i p g => flushed (data d i) p = g
  | Renaming n i g => data d i = g
  | Leaving p _ _ => content d p
  | _ => True
  end.
Definition rel (len : Z) (d : disk) (p : pc) (s : status) : Prop :=
  match p with
  | Free => s = RFree
  | Making | Made _ _ => s = RCreating
  | Open _ _ _ g => s = ROpen g
  | Closing _ _ _ g | Renaming _ _ g => s = RCommitting g /\ commit_accepts len = true
  | Dropping _ _ _ | Unlinking _ _ => s = RDiscarding
  | Stamping _ _ _ g | Flushing _ _ _ g | Linking _ _ _ g => s = RChecking g
  | Leaving q c ok =>
    match c, ok, q with
    | CREATE, false, Free => s = RCreating
    | CREATE, true, Open _ _ _ g => s = RCreating /\ g = []
    | COMMIT, false, Open _ _ _ g => s = RCommitting g /\ commit_accepts len = false
    | COMMIT, false, Stale _ => (exists g, s = RCommitting g) /\ commit_accepts len = true
    | COMMIT, true, Free => s = RCommitted
    | DISCARD, true, Free | DISCARD, false, Stale _ => s = RDiscarding
    | CHECKPOINT, false, Open _ _ _ g => s = RChecking g
    | CHECKPOINT, true, Open _ _ _ g => s = RChecked g
    | _, _, _ => False
    end
  | Stale _ => s = RStale
  | Reading i got => s = RReading (Some (data d i))
  | Undefined | Dead => True
  end.
Definition reads (w : world) (p : pc) : Prop :=
  match p with
  | Reading i got => i < spare (files w) /\ got = firstn (length got) (data (files w) i) /\ forall u n, owned (threads w u) <> Some (n, i)
  | _ => True
  end.
Definition inv (len : Z) (w : world) (r : ref) : Prop :=
  numbered (files w) /\
  (forall t n i, owned (threads w t) = Some (n, i) -> entry (files w) n = Some i /\ n <> TARGET /\ entry (files w) TARGET <> Some i) /\
  (forall t u n i m j, owned (threads w t) = Some (n, i) -> owned (threads w u) = Some (m, j) -> t <> u -> n <> m /\ i <> j) /\
  (forall t, content (files w) (threads w t)) /\ (forall t, reads w (threads w t)) /\
  (forall t, rel len (files w) (threads w t) (status_of r t)) /\
  target_data (files w) = target r.

Lemma goes_same w t d p e : threads (goes w t d p e) t = p. Proof. unfold goes. cbn. rewrite Nat.eqb_refl. reflexivity. Qed.
Lemma goes_other w t d p e u : u <> t -> threads (goes w t d p e) u = threads w u. Proof. intros H. unfold goes. cbn. destruct (Nat.eqb_spec u t); [contradiction|reflexivity]. Qed.

Definition upd (r : ref) (t : nat) (x : option (list Z)) (s : status) : ref := Ref x (fun u => if (u =? t)%nat then s else status_of r u).

Lemma content_same d d' p : (forall n i, owned p = Some (n, i) -> data d' i = data d i) -> content d p -> content d' p.
Proof. induction p; cbn [owned content]; intros H C; try exact I; try (erewrite H by reflexivity; exact C). apply IHp; assumption. Qed.
Lemma rel_same len d d' p s : (forall i got, p = Reading i got -> data d' i = data d i) -> rel len d p s -> rel len d' p s.
Proof. intros H R. destruct p; try exact R. cbn [rel] in *. rewrite (H i got eq_refl). exact R. Qed.

(** Any step. *)
Lemma inv_goes len w r t d' p' e x s :
  inv len w r -> numbered d' -> spare (files w) <= spare d' ->
  (forall u n i, u <> t -> owned (threads w u) = Some (n, i) -> entry d' n = Some i /\ entry d' TARGET <> Some i /\ data d' i = data (files w) i) ->
  (forall i, i < spare (files w) -> (forall u n, owned (threads w u) <> Some (n, i)) -> data d' i = data (files w) i) ->
  (forall n i, owned p' = Some (n, i) -> entry d' n = Some i /\ n <> TARGET /\ entry d' TARGET <> Some i /\ (owned (threads w t) = Some (n, i) \/ entry (files w) n = None /\ spare (files w) <= i)) ->
  content d' p' -> reads (goes w t d' p' e) p' -> rel len d' p' s -> target_data d' = x -> inv len (goes w t d' p' e) (upd r t x s).
Proof.
  intros (V1 & V2 & V3 & V4 & V5 & V6 & V7) N SP OT RD OW C RE RL TD. unfold inv. cbn [files goes target upd]. split; [exact N|]. split; [|split; [|split; [|split; [|split; [|exact TD]]]]].
  - intros u n i O. destruct (Nat.eq_dec u t) as [->|NE]; [rewrite goes_same in O; destruct (OW n i O) as (Q1 & Q2 & Q3 & _); auto|]. rewrite (goes_other w t _ _ _ u NE) in O. destruct (OT u n i NE O) as (Q1 & Q2 & _). split; [exact Q1|]. split; [apply (V2 u n i O)|exact Q2].
  - assert (A : forall u n i m j, u <> t -> owned p' = Some (n, i) -> owned (threads w u) = Some (m, j) -> n <> m /\ i <> j).
    { intros u n i m j NE O1 O2. destruct (OW n i O1) as (_ & _ & _ & [Q|(Q1 & Q2)]); [eapply V3; [exact Q|exact O2|congruence]|]. destruct (V2 u m j O2) as (Q3 & _). split; [intros ->; congruence|]. intros ->. apply V1 in Q3. lia. }
    intros u v n i m j O1 O2 NE. destruct (Nat.eq_dec u t) as [->|NU], (Nat.eq_dec v t) as [->|NV].
    + congruence.
    + rewrite goes_same in O1. rewrite (goes_other w t _ _ _ v NV) in O2. exact (A v n i m j NV O1 O2).
    + rewrite goes_same in O2. rewrite (goes_other w t _ _ _ u NU) in O1. destruct (A u m j n i NU O2 O1). split; congruence.
    + rewrite (goes_other w t _ _ _ u NU) in O1. rewrite (goes_other w t _ _ _ v NV) in O2. eapply V3; eassumption.
  - intros u. destruct (Nat.eq_dec u t) as [->|NE]; [rewrite goes_same; exact C|]. rewrite (goes_other w t _ _ _ u NE). apply (content_same (files w)); [|apply V4]. intros n i O. apply (OT u n i NE O).
  - intros u. destruct (Nat.eq_dec u t) as [->|NE]; [rewrite goes_same; exact RE|]. specialize (V5 u). rewrite (goes_other w t _ _ _ u NE). destruct (threads w u) as [| | | | | | | | | | | | |i got| |]; try exact I. cbn [reads files goes] in *. destruct V5 as (Q1 & Q2 & Q3). rewrite (RD i Q1 Q3). split; [lia|]. split; [exact Q2|].
    intros v n O. destruct (Nat.eq_dec v t) as [->|NV]; [|rewrite (goes_other w t _ _ _ v NV) in O; exact (Q3 v n O)]. rewrite goes_same in O. destruct (OW n i O) as (_ & _ & _ & [Q|(_ & Q)]); [exact (Q3 t n Q)|lia].
  - intros u. cbn [status_of upd]. destruct (Nat.eqb_spec u t) as [->|NE]; [rewrite goes_same; exact RL|]. rewrite (goes_other w t _ _ _ u NE). apply (rel_same len (files w)); [|apply V6]. intros i got E. specialize (V5 u). rewrite E in V5. destruct V5 as (Q1 & _ & Q3). exact (RD i Q1 Q3).
Qed.
(** A step that leaves the disk alone. *)
Lemma inv_pc len w r t p' e s :
  inv len w r -> (forall n i, owned p' = Some (n, i) -> owned (threads w t) = Some (n, i)) -> content (files w) p' -> reads (goes w t (files w) p' e) p' -> rel len (files w) p' s ->
  inv len (goes w t (files w) p' e) (upd r t (target r) s).
Proof.
  intros V O C RE RL. pose proof V as (V1 & V2 & V3 & V4 & V5 & V6 & V7). apply inv_goes; auto; [lia| |].
  - intros u n i _ Q. destruct (V2 u n i Q) as (Q1 & _ & Q2). auto.
  - intros n i Q. apply O in Q. destruct (V2 t n i Q) as (Q1 & Q2 & Q3). auto.
Qed.
(** The stream passes on some octets. *)
Lemma inv_transfers len w r t n i p k d' p1 q q' s :
  inv len w r -> transfers (files w) i p k = Some (d', p1) -> threads w t = q -> owned q = Some (n, i) -> owned q' = Some (n, i) -> content d' q' -> (forall j got, q' <> Reading j got) -> rel len d' q' s ->
  inv len (goes w t d' q' []) (upd r t (target r) s).
Proof.
  intros V T TH O O' C RE RL. pose proof V as (V1 & V2 & V3 & V4 & V5 & V6 & V7). apply transfers_ok in T as (T1 & T2 & T3 & T4). subst q. destruct (V2 t n i O) as (Q1 & Q2 & Q3).
  apply inv_goes; auto.
  - unfold numbered. rewrite T1, T2. exact V1.
  - lia.
  - intros u m j NE OU. rewrite T1. destruct (V2 u m j OU) as (U1 & _ & U2). split; [exact U1|]. split; [exact U2|]. apply T3. destruct (V3 u t m j n i OU O NE). assumption.
  - intros j _ NO. apply T3. intros ->. exact (NO t n O).
  - intros m j OM. rewrite O' in OM. injection OM as <- <-. rewrite T1. auto.
  - destruct q'; try exact I. destruct (RE i0 got eq_refl).
  - rewrite <- V7. unfold target_data. rewrite T1. destruct (entry (files w) TARGET) as [j|] eqn:E; [|reflexivity]. cbn. f_equal. apply T3. congruence.
Qed.
Lemma more_read (got dd : list Z) k : got = firstn (length got) dd -> got ++ firstn k (skipn (length got) dd) = firstn (length (got ++ firstn k (skipn (length got) dd))) dd.
Proof.
  intros E. assert (D : dd = (got ++ firstn k (skipn (length got) dd)) ++ skipn k (skipn (length got) dd)) by (rewrite <- app_assoc, firstn_skipn; rewrite E at 1; rewrite firstn_skipn; reflexivity).
  set (x := got ++ firstn k (skipn (length got) dd)) in *. set (y := skipn k (skipn (length got) dd)) in *. clearbody x y. rewrite D, firstn_app, firstn_all, Nat.sub_diag. cbn. rewrite app_nil_r. reflexivity.
Qed.
