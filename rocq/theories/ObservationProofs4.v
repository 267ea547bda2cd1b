From Coq Require Import ZArith List Bool Lia Arith.
From Verif Require Import CInt CUtil DiskModel ObservationModel ObservationSpec ObservationProofs ObservationProofs2 ObservationProofs3.
Import ListNotations.
Local Open Scope Z_scope.

(** * Nothing empty is pending *)

Definition full (p : pending) : Prop := Forall (fun ol => snd ol <> []) p.
Fixpoint wfp (p : pc) : Prop :=
  match p with
  | Open _ _ p _ | Closing _ _ p _ | Dropping _ _ p | Stamping _ _ p _ | Flushing _ _ p _ | Linking _ _ p _ => full p
  | Leaving q _ _ => wfp q
  | _ => True
  end.
Definition pinv (w : world) : Prop := forall t, wfp (threads w t).
Lemma pinv_goes w t d p e : pinv w -> wfp p -> pinv (goes w t d p e).
Proof. intros V P u. destruct (Nat.eq_dec u t) as [->|N]; [rewrite goes_same; exact P|]. rewrite goes_other by exact N. apply V. Qed.
Lemma transfers_full d i p k d' p' : transfers d i p k = Some (d', p') -> full p -> full p'.
Proof.
  unfold transfers. destruct p as [|(o, l) p]; [discriminate|]. destruct ((0 <? k) && (k <=? length l))%nat eqn:G; [|discriminate]. apply andb_true_iff in G as (_ & G). apply Nat.leb_le in G. intros E F. injection E as _ <-. inversion F; subst.
  destruct (Nat.eqb_spec k (length l)); [assumption|]. constructor; [|assumption]. cbn. intros Q. apply (f_equal (@length Z)) in Q. rewrite skipn_length in Q. cbn in Q. lia.
Qed.
Lemma pinv_step len w t a w' : pinv w -> step len w t a = Some w' -> pinv w'.
Proof.
  intros V S. pose proof (V t) as P. unfold step in S.
  destruct (threads w t) as [| |n i|n i p g|n i p g|n i g|n i p|n i|n i p g|n i p g|n i p g|n|p c ok|i got| |] eqn:TH; cbn [wfp] in P; destruct a as [c0|o l|n0|m| | |k| | |];
    try discriminate S; try (injection S as <-; apply pinv_goes; [exact V|exact I || exact P]);
    try (destruct p; try discriminate S; injection S as <-; (apply pinv_goes; [exact V|exact I || exact P]));
    try (assert (S2 : exists K : pending -> pc, (forall x, wfp (K x) = full x) /\ (let* '(d', p) := transfers (files w) i p k in Some (goes w t d' (K p) [])) = Some w') by (first [exists (fun p => Open n i p g); split; [reflexivity|exact S] | exists (fun p => Closing n i p g); split; [reflexivity|destruct p; exact S] | exists (fun p => Dropping n i p); split; [reflexivity|destruct p; exact S] | exists (fun p => Flushing n i p g); split; [reflexivity|destruct p; exact S]]); destruct S2 as (K & HK & S2); destruct (transfers (files w) i p k) as [(d', p')|] eqn:T; [|discriminate S2]; cbn [bind] in S2; injection S2 as <-; apply pinv_goes; [exact V|rewrite HK; exact (transfers_full _ _ _ _ _ _ T P)]).
  - destruct c0; try discriminate S; injection S as <-; apply pinv_goes; [exact V|exact I].
  - destruct (entry (files w) TARGET); injection S as <-; apply pinv_goes; try exact V; exact I.
  - destruct (create_accepts len && negb (n0 =? TARGET)); [|discriminate]. destruct (d_create (files w) n0) as [(d', i)|]; [|discriminate]. injection S as <-. apply pinv_goes; [exact V|exact I].
  - injection S as <-. apply pinv_goes; [exact V|constructor].
  - destruct c0; try discriminate S; try destruct (commit_accepts len); injection S as <-; apply pinv_goes; try exact V; exact P.
  - destruct l; [discriminate|]. injection S as <-. apply pinv_goes; [exact V|]. apply Forall_app. split; [exact P|]. constructor; [discriminate|constructor].
  - destruct (d_rename (files w) n TARGET); injection S as <-; apply pinv_goes; try exact V; exact I.
  - destruct (d_unlink (files w) n); injection S as <-; apply pinv_goes; try exact V; exact I.
  - destruct (m =? TARGET); [discriminate|]. destruct (d_link (files w) n m); injection S as <-; apply pinv_goes; try exact V; exact P.
  - destruct c0; injection S as <-; apply pinv_goes; try exact V; exact I.
  - destruct (length (data (files w) i) <=? length got)%nat; [|discriminate]. injection S as <-. apply pinv_goes; [exact V|exact I].
  - destruct ((0 <? k) && (k <=? length (skipn (length got) (data (files w) i))))%nat; [|discriminate]. injection S as <-. apply pinv_goes; [exact V|exact I].
Qed.
Lemma pinv_run len : forall tr w w', pinv w -> run len w tr = Some w' -> pinv w'.
Proof. induction tr as [|(t, a) tr IH]; intros w w' V R; cbn [run] in R; [injection R as <-; exact V|]. destruct (step len w t a) as [w1|] eqn:S; [|discriminate]. apply (IH w1); [eapply pinv_step; eassumption|exact R]. Qed.
Lemma pinv_start d : pinv (start d). Proof. intros t. exact I. Qed.

(** * A stream passes on all that is pending *)

Definition alone (t : nat) (tr : list (nat * act)) : Prop := Forall (fun ta => fst ta = t) tr.
Lemma flush len t i (K : pending -> pc) :
  (forall w p k, threads w t = K p -> step len w t (Transfers k) = let* '(d', p') := transfers (files w) i p k in Some (goes w t d' (K p') [])) ->
  forall p w, threads w t = K p -> full p ->
  exists tr w', alone t tr /\ run len w tr = Some w' /\ threads w' t = K [] /\ entry (files w') = entry (files w) /\ data (files w') i = flushed (data (files w) i) p /\ history w' = history w.
Proof.
  intros HK. induction p as [|(o, l) p IH]; intros w T F.
  - exists [], w. split; [constructor|]. split; [reflexivity|]. split; [exact T|]. split; [reflexivity|]. split; reflexivity.
  - inversion F as [|? ? F1 F2]; subst. cbn [snd] in F1. set (k := length l). assert (KP : (0 < k)%nat) by (destruct l; [contradiction|cbn; lia]).
    set (d1 := d_write (files w) i o l). set (w1 := goes w t d1 (K p) []).
    assert (S : step len w t (Transfers k) = Some w1).
    { rewrite (HK w _ k T). cbn [transfers]. rewrite (proj2 (Nat.ltb_lt 0 k) KP), (proj2 (Nat.leb_le k (length l)) (le_n _)). cbn [andb bind]. unfold k. rewrite Nat.eqb_refl, firstn_all. reflexivity. }
    destruct (IH w1) as (tr & w' & A & R & T' & E & D & H); [apply goes_same|exact F2|]. exists ((t, Transfers k) :: tr), w'. split; [constructor; [reflexivity|exact A]|]. split; [cbn [run]; rewrite S; exact R|]. split; [exact T'|]. split; [rewrite E; reflexivity|].
    split; [rewrite D; cbn [w1 files goes d1 d_write data]; rewrite Z.eqb_refl; reflexivity|]. rewrite H. cbn. rewrite app_nil_r. reflexivity.
Qed.

(** * Calls that are not disturbed *)

Lemma commit_works len w r t n i p g : inv len w r -> pinv w -> commit_accepts len = true -> threads w t = Open n i p g ->
  exists tr w', alone t tr /\ run len w tr = Some w' /\ threads w' t = Free /\ target_data (files w') = Some g /\ entry (files w') n = None /\ history w' = history w ++ [(t, Called COMMIT); (t, Committed g); (t, Returned COMMIT true)].
Proof.
  intros V P A T. pose proof V as (V1 & V2 & V3 & V4 & V5 & V6 & V7). destruct (V2 t n i) as (O1 & O2 & O3); [rewrite T; reflexivity|]. pose proof (V4 t) as C. rewrite T in C. cbn [content] in C. pose proof (P t) as F. rewrite T in F. cbn [wfp] in F.
  set (w1 := goes w t (files w) (Closing n i p g) [Called COMMIT]).
  assert (S1 : step len w t (Calls COMMIT) = Some w1) by (unfold step; rewrite T, A; reflexivity).
  destruct (flush len t i (fun p => Closing n i p g)) with (p := p) (w := w1) as (tr & w2 & A2 & R2 & T2 & E2 & D2 & H2); [intros w0 p0 k Q; unfold step; rewrite Q; destruct p0; reflexivity|apply goes_same|exact F|].
  set (w3 := goes w2 t (files w2) (Renaming n i g) []).
  assert (S3 : step len w2 t Proceeds = Some w3) by (unfold step; rewrite T2; reflexivity).
  assert (R : exists d', d_rename (files w3) n TARGET = Some d' /\ d' = set_entry (set_entry (files w3) TARGET (Some i)) n None).
  { unfold d_rename. cbn [w3 files goes]. rewrite E2. cbn [w1 files goes]. rewrite O1. destruct (entry (files w) TARGET) as [j|]; [|eauto]. destruct (Z.eqb_spec i j); [congruence|eauto]. }
  destruct R as (d' & R & ED).
  set (w4 := goes w3 t d' (Leaving Free COMMIT true) [Committed g]). assert (S4 : step len w3 t Proceeds = Some w4) by (unfold step; unfold w3 at 1; rewrite goes_same, R; reflexivity).
  set (w5 := goes w4 t (files w4) Free [Returned COMMIT true]). assert (S5 : step len w4 t Returns = Some w5) by (unfold step; unfold w4 at 1; rewrite goes_same; reflexivity).
  exists ((t, Calls COMMIT) :: tr ++ [(t, Proceeds); (t, Proceeds); (t, Returns)]), w5. split; [constructor; [reflexivity|]; apply Forall_app; split; [exact A2|repeat constructor]|].
  split; [cbn [run]; rewrite S1; cbn [bind]; rewrite run_app, R2; cbn [bind run]; rewrite S3; cbn [bind]; rewrite S4; cbn [bind]; rewrite S5; reflexivity|].
  split; [apply goes_same|]. cbn [w5 w4 files goes]. rewrite ED. unfold target_data. cbn [set_entry entry data]. rewrite !Z.eqb_refl, (proj2 (Z.eqb_neq TARGET n)) by congruence. cbn [option_map w3 files goes]. split; [rewrite D2; cbn [w1 files goes]; rewrite C; reflexivity|]. split; [reflexivity|].
  unfold w5, w4, w3. cbn [history goes map]. rewrite H2. unfold w1. cbn [history goes map]. rewrite app_nil_r, <- !app_assoc. reflexivity.
Qed.
Lemma discard_works len w r t n i p g : inv len w r -> pinv w -> threads w t = Open n i p g ->
  exists tr w', alone t tr /\ run len w tr = Some w' /\ threads w' t = Free /\ target_data (files w') = target_data (files w) /\ entry (files w') n = None /\ (forall m, m <> n -> entry (files w') m = entry (files w) m) /\ history w' = history w ++ [(t, Called DISCARD); (t, Returned DISCARD true)].
Proof.
  intros V P T. pose proof V as (V1 & V2 & V3 & V4 & V5 & V6 & V7). destruct (V2 t n i) as (O1 & O2 & O3); [rewrite T; reflexivity|]. pose proof (P t) as F. rewrite T in F. cbn [wfp] in F.
  set (w1 := goes w t (files w) (Dropping n i p) [Called DISCARD]).
  assert (S1 : step len w t (Calls DISCARD) = Some w1) by (unfold step; rewrite T; reflexivity).
  destruct (flush len t i (fun p => Dropping n i p)) with (p := p) (w := w1) as (tr & w2 & A2 & R2 & T2 & E2 & D2 & H2); [intros w0 p0 k Q; unfold step; rewrite Q; destruct p0; reflexivity|apply goes_same|exact F|].
  set (w3 := goes w2 t (files w2) (Unlinking n i) []).
  assert (S3 : step len w2 t Proceeds = Some w3) by (unfold step; rewrite T2; reflexivity).
  assert (R : d_unlink (files w3) n = Some (set_entry (files w3) n None)).
  { unfold d_unlink. cbn [w3 files goes]. rewrite E2. cbn [w1 files goes]. rewrite O1. reflexivity. }
  set (w4 := goes w3 t (set_entry (files w3) n None) (Leaving Free DISCARD true) []). assert (S4 : step len w3 t Proceeds = Some w4) by (unfold step; unfold w3 at 1; rewrite goes_same, R; reflexivity).
  set (w5 := goes w4 t (files w4) Free [Returned DISCARD true]). assert (S5 : step len w4 t Returns = Some w5) by (unfold step; unfold w4 at 1; rewrite goes_same; reflexivity).
  set (all := (t, Calls DISCARD) :: tr ++ [(t, Proceeds); (t, Proceeds); (t, Returns)]).
  assert (RA : run len w all = Some w5) by (cbn [all run]; rewrite S1; cbn [bind]; rewrite run_app, R2; cbn [bind run]; rewrite S3; cbn [bind]; rewrite S4; cbn [bind]; rewrite S5; reflexivity).
  assert (H5 : history w5 = history w ++ [(t, Called DISCARD); (t, Returned DISCARD true)]) by (unfold w5, w4, w3; cbn [history goes map]; rewrite H2; unfold w1; cbn [history goes map]; rewrite !app_nil_r, <- !app_assoc; reflexivity).
  exists all, w5. split; [constructor; [reflexivity|]; apply Forall_app; split; [exact A2|repeat constructor]|]. split; [exact RA|]. split; [apply goes_same|].
  split.
  { destruct (run_inv len all w r w5 V RA) as (e & r' & E1 & E3 & V'). rewrite H5 in E1. apply app_inv_head in E1. subst e. apply r_run_target in E3. cbn [current] in E3. destruct V' as (_ & _ & _ & _ & _ & _ & V'). congruence. }
  cbn [w5 w4 files goes set_entry entry w3]. rewrite Z.eqb_refl. split; [reflexivity|]. split; [|exact H5]. intros m N. destruct (Z.eqb_spec m n); [contradiction|]. rewrite E2. reflexivity.
Qed.
Lemma checkpoint_works len w r t n i p g m : inv len w r -> pinv w -> commit_accepts len = true -> threads w t = Open n i p g -> m <> TARGET -> entry (files w) m = None ->
  exists tr w', alone t tr /\ run len w tr = Some w' /\ threads w' t = Open n i [] g /\ entry (files w') m = Some i /\ data (files w') i = g /\ target_data (files w') = target_data (files w) /\ (forall q, q <> m -> entry (files w') q = entry (files w) q) /\
    history w' = history w ++ [(t, Called CHECKPOINT); (t, Stamped m); (t, Returned CHECKPOINT true)].
Proof.
  intros V P A T NT EM. pose proof V as (V1 & V2 & V3 & V4 & V5 & V6 & V7). destruct (V2 t n i) as (O1 & O2 & O3); [rewrite T; reflexivity|]. pose proof (V4 t) as C. rewrite T in C. cbn [content] in C. pose proof (P t) as F. rewrite T in F. cbn [wfp] in F.
  set (w0 := goes w t (files w) (Stamping n i p g) [Called CHECKPOINT]).
  assert (S0 : step len w t (Calls CHECKPOINT) = Some w0) by (unfold step; rewrite T, A; reflexivity).
  set (w1 := goes w0 t (files w0) (Flushing n i p g) []).
  assert (S1 : step len w0 t Proceeds = Some w1) by (unfold step; unfold w0 at 1; rewrite goes_same; reflexivity).
  destruct (flush len t i (fun p => Flushing n i p g)) with (p := p) (w := w1) as (tr & w2 & A2 & R2 & T2 & E2 & D2 & H2); [intros w9 p0 k Q; unfold step; rewrite Q; destruct p0; reflexivity|apply goes_same|exact F|].
  set (w3 := goes w2 t (files w2) (Linking n i [] g) []).
  assert (S3 : step len w2 t Proceeds = Some w3) by (unfold step; rewrite T2; reflexivity).
  assert (R : d_link (files w3) n m = Some (set_entry (files w3) m (Some i))).
  { unfold d_link. cbn [w3 files goes]. rewrite E2. cbn [w1 w0 files goes]. rewrite O1, EM. reflexivity. }
  set (w4 := goes w3 t (set_entry (files w3) m (Some i)) (Leaving (Open n i [] g) CHECKPOINT true) [Stamped m]). assert (S4 : step len w3 t (Stamps m) = Some w4) by (unfold step; unfold w3 at 1; rewrite goes_same, R, (proj2 (Z.eqb_neq m TARGET) NT); reflexivity).
  set (w5 := goes w4 t (files w4) (Open n i [] g) [Returned CHECKPOINT true]). assert (S5 : step len w4 t Returns = Some w5) by (unfold step; unfold w4 at 1; rewrite goes_same; reflexivity).
  set (all := (t, Calls CHECKPOINT) :: (t, Proceeds) :: tr ++ [(t, Proceeds); (t, Stamps m); (t, Returns)]).
  assert (RA : run len w all = Some w5) by (cbn [all run]; rewrite S0; cbn [bind]; rewrite S1; cbn [bind]; rewrite run_app, R2; cbn [bind run]; rewrite S3; cbn [bind]; rewrite S4; cbn [bind]; rewrite S5; reflexivity).
  assert (H5 : history w5 = history w ++ [(t, Called CHECKPOINT); (t, Stamped m); (t, Returned CHECKPOINT true)]) by (unfold w5, w4, w3; cbn [history goes map]; rewrite H2; unfold w1, w0; cbn [history goes map]; rewrite !app_nil_r, <- !app_assoc; reflexivity).
  exists all, w5. split; [constructor; [reflexivity|]; constructor; [reflexivity|]; apply Forall_app; split; [exact A2|repeat constructor]|]. split; [exact RA|]. split; [apply goes_same|].
  split; [cbn [w5 w4 files goes set_entry entry]; rewrite Z.eqb_refl; reflexivity|]. split; [cbn [w5 w4 w3 files goes set_entry data]; rewrite D2; exact C|].
  split; [|split; [|exact H5]].
  { destruct (run_inv len all w r w5 V RA) as (e & r' & E1 & E3 & V'). rewrite H5 in E1. apply app_inv_head in E1. subst e. apply r_run_target in E3. cbn [current] in E3. destruct V' as (_ & _ & _ & _ & _ & _ & V'). congruence. }
  intros q N. cbn [w5 w4 w3 files goes set_entry entry]. destruct (Z.eqb_spec q m); [contradiction|]. rewrite E2. reflexivity.
Qed.

(** * A commit must have been accepted *)

Lemma step_committed len w t a w' u l : step len w t a = Some w' -> In (u, Committed l) (history w') -> In (u, Committed l) (history w) \/ exists n i, threads w t = Renaming n i l.
Proof.
  intros S H.
  assert (G : forall d p e, Some (goes w t d p e) = Some w' -> ~ In (Committed l) e -> In (u, Committed l) (history w) \/ exists n i, threads w t = Renaming n i l).
  { intros d p e E N. injection E as <-. cbn [goes history] in H. apply in_app_iff in H as [H|H]; [auto|]. apply in_map_iff in H as (x & Q & I). injection Q as _ ->. contradiction. }
  unfold step in S. destruct (threads w t) as [| |n i|n i p g|n i p g|n i g|n i p|n i|n i p g|n i p g|n i p g|n|p c ok|i got| |] eqn:TH; destruct a as [c0|o x|n0|m| | |k| | |];
    repeat match type of S with context[match ?x with _ => _ end] => first [is_var x; destruct x | destruct x eqn:?] end; cbn [bind] in S; try discriminate S; try (eapply G; [exact S|]; cbn; intuition discriminate).
  all: try (unfold bind in S; repeat match type of S with context[match ?x with _ => _ end] => destruct x eqn:? end; try discriminate S; eapply G; [exact S|]; cbn; intuition discriminate).
  injection S as <-. cbn [goes history map] in H. apply in_app_iff in H as [H|[H|[]]]; [auto|]. right. exists n, i. congruence.
Qed.
Lemma commit_accepted len : forall tr w r w' u l, inv len w r -> run len w tr = Some w' -> In (u, Committed l) (history w') -> In (u, Committed l) (history w) \/ commit_accepts len = true.
Proof.
  induction tr as [|(t, a) tr IH]; intros w r w' u l V R H; cbn [run] in R; [injection R as <-; auto|]. destruct (step len w t a) as [w1|] eqn:S; [|discriminate]. cbn [bind] in R. destruct (inv_step len w r t a w1 V S) as (e1 & r1 & _ & _ & V1).
  destruct (IH w1 r1 w' u l V1 R H) as [Q|Q]; [|auto]. destruct (step_committed len w t a w1 u l S Q) as [Q1|(n & i & Q1)]; [auto|]. right. destruct V as (_ & _ & _ & _ & _ & V & _). specialize (V t). rewrite Q1 in V. apply V.
Qed.
