From Coq Require Import ZArith List Bool Lia Arith.
From Verif Require Import CInt CUtil DiskModel ObservationModel ObservationSpec ObservationProofs ObservationProofs2.
Import ListNotations.
Local Open Scope Z_scope.

(** * Runs *)

Lemma r_run_app len : forall h1 h2 r, r_run len r (h1 ++ h2) = let* r := r_run len r h1 in r_run len r h2.
Proof. induction h1 as [|e h1 IH]; intros h2 r; [reflexivity|]. cbn [app r_run]. destruct (r_step len r e); [apply IH|reflexivity]. Qed.
Lemma run_app len : forall t1 t2 w, run len w (t1 ++ t2) = let* w := run len w t1 in run len w t2.
Proof. induction t1 as [|(t, a) t1 IH]; intros t2 w; [reflexivity|]. cbn [app run]. destruct (step len w t a); [apply IH|reflexivity]. Qed.

Lemma inv_start len d : numbered d -> inv len (start d) (r_start (target_data d)).
Proof. intros N. split; [exact N|]. split; [discriminate|]. split; [discriminate|]. split; [intros t; exact I|]. split; [intros t; exact I|]. split; [intros t; reflexivity|reflexivity]. Qed.
Lemma run_inv len : forall tr w r w', inv len w r -> run len w tr = Some w' -> exists e r', history w' = history w ++ e /\ r_run len r e = Some r' /\ inv len w' r'.
Proof.
  induction tr as [|(t, a) tr IH]; intros w r w' V R; cbn [run] in R; [injection R as <-; exists [], r; rewrite app_nil_r; auto|].
  destruct (step len w t a) as [w1|] eqn:S; [|discriminate]. cbn [bind] in R. destruct (inv_step len w r t a w1 V S) as (e1 & r1 & E1 & E2 & V1). destruct (IH w1 r1 w' V1 R) as (e2 & r2 & E3 & E4 & V2).
  exists (e1 ++ e2), r2. split; [rewrite E3, E1, <- app_assoc; reflexivity|]. split; [|exact V2]. rewrite r_run_app, E2. exact E4.
Qed.
Lemma start_inv len d tr w : numbered d -> run len (start d) tr = Some w -> exists r, r_run len (r_start (target_data d)) (history w) = Some r /\ inv len w r.
Proof. intros N R. destruct (run_inv len tr (start d) _ w (inv_start len d N) R) as (e & r & E1 & E2 & V). cbn in E1. subst e. eauto. Qed.

(** * What the reference says *)

Lemma current_app init h1 h2 : current init (h1 ++ h2) = current (current init h1) h2.
Proof. revert init. induction h1 as [|(t, e) h1 IH]; intros init; [reflexivity|]. cbn [app current]. destruct e; apply IH. Qed.
Lemma r_step_target len r t e r' : r_step len r (t, e) = Some r' -> target r' = current (target r) [(t, e)] /\ forall u, u <> t -> status_of r' u = status_of r u.
Proof.
  intros S. assert (M : forall s, moves r t s = Some r' -> target r' = target r /\ forall u, u <> t -> status_of r' u = status_of r u).
  { intros s E. injection E as <-. split; [reflexivity|]. intros u N. cbn. destruct (Nat.eqb_spec u t); [contradiction|reflexivity]. }
  cbn [r_step] in S. destruct (status_of r t) eqn:ST; destruct e as [c|c ok|o x|l'|m| |l']; try discriminate S; try (destruct c; try discriminate S); try (destruct ok; try discriminate S); try (destruct (same_data _ _); [|discriminate S]); try (apply M in S; exact S).
  destruct (list_eq_dec Z.eq_dec l l') as [<-|]; [|discriminate]. injection S as <-. split; [reflexivity|]. intros u N. cbn. destruct (Nat.eqb_spec u t); [contradiction|reflexivity].
Qed.
Lemma r_run_target len : forall h r r', r_run len r h = Some r' -> target r' = current (target r) h.
Proof.
  induction h as [|(t, e) h IH]; intros r r' R; cbn [r_run] in R; [injection R as <-; reflexivity|]. destruct (r_step len r (t, e)) as [r1|] eqn:S; [|discriminate]. cbn [bind] in R. rewrite (IH r1 r' R). destruct (r_step_target len r t e r1 S) as (-> & _). change ((t, e) :: h) with ([(t, e)] ++ h). rewrite current_app. reflexivity.
Qed.
Lemma r_run_status len t : forall h r r', r_run len r h = Some r' -> (forall e, ~ In (t, e) h) -> status_of r' t = status_of r t.
Proof.
  induction h as [|(u, e) h IH]; intros r r' R N; cbn [r_run] in R; [injection R as <-; reflexivity|]. destruct (r_step len r (u, e)) as [r1|] eqn:S; [|discriminate]. cbn [bind] in R. rewrite (IH r1 r' R) by (intros x I; apply (N x); right; exact I). apply (r_step_target len r u e r1 S). intros ->. apply (N e). left. reflexivity.
Qed.
(** What a reader got is what there was when it opened. *)
Lemma r_reader len r h1 h2 h3 t l r' : r_run len r (h1 ++ (t, Opened) :: h2 ++ (t, Got l) :: h3) = Some r' -> (forall e, ~ In (t, e) h2) -> l = current (target r) h1.
Proof.
  intros R N. rewrite r_run_app in R. destruct (r_run len r h1) as [r1|] eqn:R1; [|discriminate]. cbn [bind r_run] in R. apply r_run_target in R1 as T1.
  cbn [r_step] in R. destruct (status_of r1 t) eqn:ST; try discriminate R. cbn [moves bind] in R. rewrite r_run_app in R.
  match type of R with context[r_run len ?x h2] => destruct (r_run len x h2) as [r2|] eqn:R2; [|discriminate R]; pose proof (r_run_status len t h2 x r2 R2 N) as ST2; cbn [status_of] in ST2 end. rewrite Nat.eqb_refl in ST2. cbn [bind r_run r_step] in R. rewrite ST2 in R. destruct (same_data (target r1) l); [congruence|discriminate].
Qed.
(** What a commit installs is what was written since the observation was made. *)
Definition tracks (s : status) (l : list Z) : Prop :=
  match s with ROpen x | RCommitting x | RChecking x | RChecked x => x = l | RCreating | RFree | RStale | RDiscarding | RCommitted | RReading _ => True end.
Lemma tracks_step len r t u e r' l : r_step len r (u, e) = Some r' -> (u, e) <> (t, Returned CREATE true) -> tracks (status_of r t) l -> tracks (status_of r' t) (written t [(u, e)] l).
Proof.
  intros S N T. destruct (Nat.eq_dec u t) as [->|NE].
  - assert (M : forall s, moves r t s = Some r' -> status_of r' t = s) by (intros s E; injection E as <-; cbn; rewrite Nat.eqb_refl; reflexivity).
    cbn [r_step] in S. destruct (status_of r t) eqn:ST; destruct e as [c|c ok|o x|l'|m| |l']; try discriminate S; try (destruct c; try discriminate S); try (destruct ok; try discriminate S); try congruence; try (destruct (same_data _ _); [|discriminate S]); try (apply M in S; rewrite S); cbn [tracks written] in *; rewrite ?Nat.eqb_refl; auto.
    + congruence.
    + destruct (commit_accepts len); exact T || exact I.
    + destruct (list_eq_dec Z.eq_dec l0 l'); [|discriminate]. injection S as <-. cbn. rewrite Nat.eqb_refl. exact I.
  - destruct (r_step_target len r u e r' S) as (_ & Q). rewrite (Q t) by congruence. replace (written t [(u, e)] l) with l; [exact T|]. cbn. destruct e; try reflexivity. destruct (Nat.eqb_spec u t); [contradiction|reflexivity].
Qed.
Lemma written_app t h1 h2 l : written t (h1 ++ h2) l = written t h2 (written t h1 l).
Proof. revert l. induction h1 as [|(u, e) h1 IH]; intros l; [reflexivity|]. cbn [app written]. destruct e; apply IH. Qed.
Lemma tracks_run len t : forall h r r' l, r_run len r h = Some r' -> ~ In (t, Returned CREATE true) h -> tracks (status_of r t) l -> tracks (status_of r' t) (written t h l).
Proof.
  induction h as [|(u, e) h IH]; intros r r' l R N T; cbn [r_run] in R; [injection R as <-; exact T|]. destruct (r_step len r (u, e)) as [r1|] eqn:S; [|discriminate]. cbn [bind] in R.
  change ((u, e) :: h) with ([(u, e)] ++ h). rewrite written_app. apply (IH r1); [exact R|intros I; apply N; right; exact I|]. eapply tracks_step; eauto. intros E. apply N. left. exact E.
Qed.
Lemma r_commit len r h1 h2 h3 t l r' : r_run len r (h1 ++ (t, Returned CREATE true) :: h2 ++ (t, Committed l) :: h3) = Some r' -> ~ In (t, Returned CREATE true) h2 -> l = written t h2 [].
Proof.
  intros R N. rewrite r_run_app in R. destruct (r_run len r h1) as [r1|] eqn:R1; [|discriminate]. cbn [bind r_run] in R.
  destruct (r_step len r1 (t, Returned CREATE true)) as [r2|] eqn:S; [|discriminate]. cbn [bind] in R. rewrite r_run_app in R. destruct (r_run len r2 h2) as [r3|] eqn:R3; [|discriminate]. cbn [bind r_run] in R.
  assert (T : tracks (status_of r2 t) []) by (cbn [r_step] in S; destruct (status_of r1 t); try discriminate S; injection S as <-; cbn; rewrite Nat.eqb_refl; reflexivity).
  apply (tracks_run len t h2 r2 r3 [] R3 N) in T. cbn [r_step] in R. destruct (status_of r3 t) eqn:ST; try discriminate R. cbn [tracks] in T. destruct (list_eq_dec Z.eq_dec l0 l); [congruence|discriminate].
Qed.
(** There is no commit without a creation. *)
Definition unopened (s : status) : Prop := match s with ROpen _ | RCommitting _ | RChecking _ | RChecked _ => False | _ => True end.
Lemma r_run_committed len t l : forall h r r', r_run len r h = Some r' -> unopened (status_of r t) -> In (t, Committed l) h -> In (t, Returned CREATE true) h.
Proof.
  induction h as [|(u, e) h IH]; intros r r' R U I; [destruct I|]. cbn [r_run] in R. destruct (r_step len r (u, e)) as [r1|] eqn:S; [|discriminate]. cbn [bind] in R.
  destruct I as [E|I]; [injection E as -> ->; cbn [r_step] in S; destruct (status_of r t); try discriminate S; destruct U|].
  assert (D : (u, e) = (t, Returned CREATE true) \/ unopened (status_of r1 t)).
  { destruct (Nat.eq_dec u t) as [->|NE]; [|right; destruct (r_step_target len r u e r1 S) as (_ & Q); rewrite (Q t) by congruence; exact U].
    assert (M : forall s, moves r t s = Some r1 -> status_of r1 t = s) by (intros s E; injection E as <-; cbn; rewrite Nat.eqb_refl; reflexivity).
    cbn [r_step] in S. destruct (status_of r t) eqn:ST; try (destruct U; fail); destruct e as [c|c ok|o x|l'|m| |l']; try discriminate S; try (destruct c; try discriminate S); try (destruct ok; try discriminate S); try (destruct (same_data _ _); [|discriminate S]); try (left; reflexivity); right; apply M in S; rewrite S; exact Logic.I. }
  destruct D as [->|D]; [left; reflexivity|]. right. exact (IH r1 r' R D I).
Qed.

(** * Other files *)

Definition dirty (w : world) : Prop := exists t, threads w t = Dead \/ threads w t = Undefined \/ (exists q c, threads w t = Leaving q c false) \/ exists c, In (t, Returned c false) (history w).
Definition kinv (d : disk) (w : world) : Prop :=
  (forall n, n <> TARGET -> entry d n <> None -> entry (files w) n = entry d n /\ forall t i, owned (threads w t) <> Some (n, i)) /\
  (forall i, i < spare d -> data (files w) i = data d i) /\ spare d <= spare (files w) /\ (forall t n i, owned (threads w t) = Some (n, i) -> spare d <= i) /\
  (dirty w \/ forall n, n <> TARGET -> entry d n = None -> entry (files w) n <> None -> (exists t i, owned (threads w t) = Some (n, i)) \/ exists t, In (t, Stamped n) (history w)).

Lemma kinv_goes d w t d' p' e :
  kinv d w ->
  (forall n, n <> TARGET -> entry (files w) n <> None -> (forall i, owned (threads w t) <> Some (n, i)) -> entry d' n = entry (files w) n) ->
  (forall i, i < spare (files w) -> (forall n, owned (threads w t) <> Some (n, i)) -> data d' i = data (files w) i) ->
  spare (files w) <= spare d' ->
  (forall n i, owned p' = Some (n, i) -> owned (threads w t) = Some (n, i) \/ entry (files w) n = None /\ spare (files w) <= i) ->
  dirty (goes w t d' p' e) \/ (forall n, n <> TARGET -> entry d' n <> None -> (exists i, owned p' = Some (n, i)) \/ In (Stamped n) e \/ entry (files w) n <> None /\ forall i, owned (threads w t) <> Some (n, i)) ->
  (dirty w -> dirty (goes w t d' p' e)) ->
  kinv d (goes w t d' p' e).
Proof.
  intros (K1 & K2 & K3 & K4 & K5) A B C D E DM. unfold kinv. cbn [files goes]. split; [|split; [|split; [|split]]].
  - intros n N0 E0. destruct (K1 n N0 E0) as (Q1 & Q2). split; [rewrite A; [exact Q1|exact N0|congruence|apply Q2]|]. intros u i O. destruct (Nat.eq_dec u t) as [->|N]; [rewrite goes_same in O|rewrite (goes_other w t _ _ _ u N) in O; exact (Q2 u i O)]. apply D in O as [O|(O & _)]; [exact (Q2 t i O)|congruence].
  - intros i I. rewrite B; [apply K2, I|lia|]. intros n O. apply K4 in O. lia.
  - lia.
  - intros u n i O. destruct (Nat.eq_dec u t) as [->|N]; [rewrite goes_same in O|rewrite (goes_other w t _ _ _ u N) in O; exact (K4 u n i O)]. apply D in O as [O|(_ & O)]; [exact (K4 t n i O)|lia].
  - destruct K5 as [K5|K5]; [left; apply DM, K5|]. destruct E as [E|E]; [left; exact E|]. right. intros n N0 E0 E1. destruct (E n N0 E1) as [(i & Q)|[Q|(Q1 & Q2)]].
    + left. exists t, i. rewrite goes_same. exact Q.
    + right. exists t. cbn. apply in_app_iff. right. apply (in_map (fun x => (t, x)) e), Q.
    + destruct (K5 n N0 E0 Q1) as [(u & i & Q)|(u & Q)]; [|right; exists u; cbn; apply in_app_iff; auto]. left. exists u, i. rewrite goes_other; [exact Q|]. intros ->. exact (Q2 i Q).
Qed.
Lemma dirty_goes w t d p e : threads w t <> Dead -> threads w t <> Undefined -> (forall q c, threads w t = Leaving q c false -> p = Dead \/ e = [Returned c false]) -> dirty w -> dirty (goes w t d p e).
Proof.
  intros N1 N2 L (u & [H|[H|[(q & c & H)|(c & H)]]]).
  - exists u. left. rewrite goes_other; [exact H|intros ->; contradiction].
  - exists u. right. left. rewrite goes_other; [exact H|intros ->; contradiction].
  - destruct (Nat.eq_dec u t) as [->|N]; [|exists u; right; right; left; exists q, c; rewrite goes_other by exact N; exact H]. exists t. destruct (L q c H) as [->| -> ]; [left; apply goes_same|]. right. right. right. exists c. cbn. apply in_app_iff. right. left. reflexivity.
  - exists u. right. right. right. exists c. cbn. apply in_app_iff. auto.
Qed.
(** The disk is left alone. *)
Lemma kinv_pc d w t p' e :
  kinv d w -> (forall n i, owned p' = Some (n, i) -> owned (threads w t) = Some (n, i)) -> (dirty (goes w t (files w) p' e) \/ (forall n i, owned (threads w t) = Some (n, i) -> owned p' = Some (n, i))) ->
  (dirty w -> dirty (goes w t (files w) p' e)) -> kinv d (goes w t (files w) p' e).
Proof.
  intros K O1 O2 DM. apply kinv_goes; auto; [lia|]. destruct O2 as [O2|O2]; [auto|]. right. intros n N0 E. destruct (owned (threads w t)) as [(m, i)|] eqn:O; [|right; right; split; [exact E|discriminate]]. destruct (Z.eq_dec m n) as [->|NM]; [left; exists i; apply O2; reflexivity|]. right. right. split; [exact E|congruence].
Qed.
Lemma kinv_transfers d w t n i p k d' p1 q' : kinv d w -> transfers (files w) i p k = Some (d', p1) -> owned (threads w t) = Some (n, i) -> owned q' = Some (n, i) -> (dirty w -> dirty (goes w t d' q' [])) -> kinv d (goes w t d' q' []).
Proof.
  intros K T O O' DM. apply transfers_ok in T as (T1 & T2 & T3 & _). apply kinv_goes; auto.
  - intros m _ _ _. rewrite T1. reflexivity.
  - intros j _ N. apply T3. intros ->. exact (N n O).
  - lia.
  - intros m j Q. left. congruence.
  - right. intros m _ E. rewrite T1 in E. destruct (Z.eq_dec m n) as [->|NM]; [left; eauto|]. right. right. split; [exact E|]. intros j Q. congruence.
Qed.

Lemma kinv_step len d w r t a w' : inv len w r -> kinv d w -> step len w t a = Some w' -> kinv d w'.
Proof.
  intros V K S. pose proof V as (V1 & V2 & V3 & V4 & V5 & V6 & V7). pose proof (V2 t) as O. pose proof (V6 t) as RL. unfold step in S.
  assert (DL : forall q c, dirty (goes w t (files w) (Leaving q c false) [])) by (intros q c; exists t; right; right; left; exists q, c; apply goes_same).
  assert (DD : forall e, dirty (goes w t (files w) Dead e)) by (intros e; exists t; left; apply goes_same).
  assert (DU : forall e, dirty (goes w t (files w) Undefined e)) by (intros e; exists t; right; left; apply goes_same).
  destruct (threads w t) as [| |n i|n i p g|n i p g|n i g|n i p|n i|n i p g|n i p g|n i p g|n|p c ok|i got| |] eqn:TH; cbn [owned] in *.
  - assert (DM : forall d' p e, dirty w -> dirty (goes w t d' p e)) by (intros d' p e; apply dirty_goes; congruence).
    destruct a as [c|o l|n|m| | |k| | |]; try discriminate S; [destruct c; try discriminate S| |]; try (injection S as <-).
    + apply kinv_pc; auto; [discriminate|right; rewrite TH; discriminate].
    + destruct (entry (files w) TARGET) as [i|] eqn:E; injection S as <-; apply kinv_pc; auto; try discriminate; right; rewrite TH; discriminate.
    + apply kinv_pc; auto. discriminate.
  - assert (DM : forall d' p e, dirty w -> dirty (goes w t d' p e)) by (intros d' p e; apply dirty_goes; congruence).
    destruct a as [c|o l|n|m| | |k| | |]; try discriminate S; [|injection S as <-..].
    + destruct (create_accepts len && negb (n =? TARGET)) eqn:G; [|discriminate]. destruct (d_create (files w) n) as [(d', i)|] eqn:D; [|discriminate]. injection S as <-.
      destruct (create_facts _ _ _ _ D) as (D1 & D2 & D3 & D4 & D5). apply kinv_goes; auto.
      * intros m _ E _. rewrite D4. destruct (Z.eqb_spec m n); [congruence|reflexivity].
      * intros j J _. rewrite D5. destruct (Z.eqb_spec j i); [lia|reflexivity].
      * lia.
      * intros m j Q. injection Q as <- <-. right. split; [exact D1|lia].
      * right. intros m _ E. rewrite D4 in E. destruct (Z.eqb_spec m n) as [EQ|]; [left; exists i; rewrite EQ; reflexivity|]. right. right. split; [exact E|rewrite TH; discriminate].
    + apply kinv_pc; auto. discriminate.
    + apply kinv_pc; auto. discriminate.
  - assert (DM : forall d' p e, dirty w -> dirty (goes w t d' p e)) by (intros d' p e; apply dirty_goes; congruence).
    destruct a as [c|o l|m|m| | |k| | |]; try discriminate S; injection S as <-.
    + apply kinv_pc; auto; rewrite TH; auto.
    + apply kinv_pc; auto. discriminate.
    + apply kinv_pc; auto. discriminate.
  - assert (DM : forall d' p e, dirty w -> dirty (goes w t d' p e)) by (intros d' p0 e; apply dirty_goes; congruence).
    destruct a as [c|o l|m|m| | |k| | |]; try discriminate S; [destruct c; try discriminate S|destruct l as [|x l]; [discriminate S|]| |]; try (injection S as <-).
    + destruct (commit_accepts len); injection S as <-; apply kinv_pc; auto; rewrite TH; auto.
    + destruct (commit_accepts len); injection S as <-; apply kinv_pc; auto; rewrite TH; auto.
    + apply kinv_pc; auto; rewrite TH; auto.
    + apply kinv_pc; auto; rewrite TH; auto.
    + destruct (transfers (files w) i p k) as [(d', p')|] eqn:T; [|discriminate]. cbn [bind] in S. injection S as <-. eapply kinv_transfers; eauto; [rewrite TH; reflexivity|reflexivity].
    + apply kinv_pc; auto. discriminate.
  - assert (DM : forall d' p e, dirty w -> dirty (goes w t d' p e)) by (intros d' p0 e; apply dirty_goes; congruence).
    destruct a as [c|o l|m|m| | |k| | |]; try (destruct p; discriminate S).
    + destruct p; [|discriminate S]. injection S as <-. apply kinv_pc; auto; rewrite TH; auto.
    + assert (S2 : w' = goes w t (files w) (Leaving (Stale n) COMMIT false) []) by (destruct p; congruence). subst w'. apply kinv_pc; auto. discriminate.
    + assert (S2 : (let* '(d', p) := transfers (files w) i p k in Some (goes w t d' (Closing n i p g) [])) = Some w') by (destruct p; exact S). clear S. destruct (transfers (files w) i p k) as [(d', p')|] eqn:T; [|discriminate]. cbn [bind] in S2. injection S2 as <-. eapply kinv_transfers; eauto; [rewrite TH; reflexivity|reflexivity].
    + assert (S2 : w' = goes w t (files w) Dead []) by (destruct p; congruence). subst w'. apply kinv_pc; auto. discriminate.
  - assert (DM : forall d' p e, dirty w -> dirty (goes w t d' p e)) by (intros d' p0 e; apply dirty_goes; congruence).
    destruct (O n i eq_refl) as (O1 & O2 & O3). destruct a as [c|o l|m|m| | |k| | |]; try discriminate S; [|injection S as <-..].
    + assert (R : exists d', d_rename (files w) n TARGET = Some d' /\ d' = set_entry (set_entry (files w) TARGET (Some i)) n None).
      { unfold d_rename. rewrite O1. destruct (entry (files w) TARGET) as [j|]; [|eauto]. destruct (Z.eqb_spec i j); [congruence|eauto]. }
      destruct R as (d' & R & ED). rewrite R in S. injection S as <-.
      assert (EM : forall m, m <> TARGET -> entry d' m = if m =? n then None else entry (files w) m) by (intros m NM; rewrite ED; cbn [entry set_entry]; destruct (m =? n); [reflexivity|]; destruct (Z.eqb_spec m TARGET); [contradiction|reflexivity]).
      assert (DD' : data d' = data (files w) /\ spare d' = spare (files w)) by (rewrite ED; split; reflexivity). destruct DD' as (DD1 & DD2).
      apply kinv_goes; auto; try discriminate.
      * intros m NM _ NO. rewrite (EM m NM). destruct (Z.eqb_spec m n) as [->|]; [destruct (NO i); rewrite TH; reflexivity|reflexivity].
      * intros j _ _. rewrite DD1. reflexivity.
      * lia.
      * right. intros m NM E. rewrite (EM m NM) in E. destruct (Z.eqb_spec m n); [contradiction|]. right. right. split; [exact E|]. rewrite TH. cbn [owned]. congruence.
    + apply kinv_pc; auto. discriminate.
    + apply kinv_pc; auto. discriminate.
  - assert (DM : forall d' p e, dirty w -> dirty (goes w t d' p e)) by (intros d' p0 e; apply dirty_goes; congruence).
    destruct a as [c|o l|m|m| | |k| | |]; try (destruct p; discriminate S).
    + destruct p; [|discriminate S]. injection S as <-. apply kinv_pc; auto; rewrite TH; auto.
    + assert (S2 : w' = goes w t (files w) (Leaving (Stale n) DISCARD false) []) by (destruct p; congruence). subst w'. apply kinv_pc; auto. discriminate.
    + assert (S2 : (let* '(d', p) := transfers (files w) i p k in Some (goes w t d' (Dropping n i p) [])) = Some w') by (destruct p; exact S). clear S. destruct (transfers (files w) i p k) as [(d', p')|] eqn:T; [|discriminate]. cbn [bind] in S2. injection S2 as <-. eapply kinv_transfers; eauto; [rewrite TH; reflexivity|reflexivity].
    + assert (S2 : w' = goes w t (files w) Dead []) by (destruct p; congruence). subst w'. apply kinv_pc; auto. discriminate.
  - assert (DM : forall d' p e, dirty w -> dirty (goes w t d' p e)) by (intros d' p0 e; apply dirty_goes; congruence).
    destruct (O n i eq_refl) as (O1 & O2 & O3). destruct a as [c|o l|m|m| | |k| | |]; try discriminate S; [|injection S as <-..].
    + unfold d_unlink in S. rewrite O1 in S. injection S as <-. apply kinv_goes; auto; try discriminate.
      * intros m NM _ NO. cbn [set_entry entry]. destruct (Z.eqb_spec m n) as [->|]; [destruct (NO i); rewrite TH; reflexivity|reflexivity].
      * cbn; lia.
      * right. intros m NM E. cbn [set_entry entry] in E. destruct (Z.eqb_spec m n); [contradiction|]. right. right. split; [exact E|]. rewrite TH. cbn [owned]. congruence.
    + apply kinv_pc; auto. discriminate.
    + apply kinv_pc; auto. discriminate.
  - assert (DM : forall d' p e, dirty w -> dirty (goes w t d' p e)) by (intros d' p0 e; apply dirty_goes; congruence).
    destruct a as [c|o l|m|m| | |k| | |]; try discriminate S; injection S as <-; apply kinv_pc; auto; try discriminate; rewrite TH; auto.
  - assert (DM : forall d' p e, dirty w -> dirty (goes w t d' p e)) by (intros d' p0 e; apply dirty_goes; congruence).
    destruct a as [c|o l|m|m| | |k| | |]; try (destruct p; discriminate S).
    + destruct p; [|discriminate S]. injection S as <-. apply kinv_pc; auto; rewrite TH; auto.
    + assert (S2 : w' = goes w t (files w) (Linking n i p g) []) by (destruct p; congruence). subst w'. apply kinv_pc; auto; rewrite TH; auto.
    + assert (S2 : (let* '(d', p) := transfers (files w) i p k in Some (goes w t d' (Flushing n i p g) [])) = Some w') by (destruct p; exact S). clear S. destruct (transfers (files w) i p k) as [(d', p')|] eqn:T; [|discriminate]. cbn [bind] in S2. injection S2 as <-. eapply kinv_transfers; eauto; [rewrite TH; reflexivity|reflexivity].
    + assert (S2 : w' = goes w t (files w) Dead []) by (destruct p; congruence). subst w'. apply kinv_pc; auto. discriminate.
  - assert (DM : forall d' p e, dirty w -> dirty (goes w t d' p e)) by (intros d' p0 e; apply dirty_goes; congruence).
    destruct (O n i eq_refl) as (O1 & O2 & O3). destruct a as [c|o l|m|m| | |k| | |]; try discriminate S; [|injection S as <-..].
    + destruct (Z.eqb_spec m TARGET) as [|NM]; [discriminate|]. unfold d_link in S. rewrite O1 in S. destruct (entry (files w) m) as [j0|] eqn:EM; injection S as <-.
      * apply kinv_pc; auto; rewrite TH; auto.
      * apply kinv_goes; auto.
        -- intros q _ E _. cbn [set_entry entry]. destruct (Z.eqb_spec q m); [congruence|reflexivity].
        -- cbn; lia.
        -- intros q j Q. left. rewrite TH. exact Q.
        -- right. intros q _ E. cbn [set_entry entry] in E. destruct (Z.eqb_spec q m) as [EQ|]; [right; left; left; rewrite EQ; reflexivity|]. destruct (Z.eq_dec q n) as [EQ|NQ]; [left; exists i; rewrite EQ; reflexivity|]. right. right. split; [exact E|]. rewrite TH. cbn [owned]. congruence.
    + apply kinv_pc; auto; rewrite TH; auto.
    + apply kinv_pc; auto. discriminate.
  - assert (DM : forall d' p e, dirty w -> dirty (goes w t d' p e)) by (intros d' p0 e; apply dirty_goes; congruence).
    destruct a as [c|o l|m|m| | |k| | |]; try discriminate S; [destruct c|injection S as <-..]; try injection S as <-; apply kinv_pc; auto; try discriminate; right; rewrite TH; discriminate.
  - destruct a as [c0|o l|m|m| | |k| | |]; try discriminate S; injection S as <-.
    + assert (DM : dirty w -> dirty (goes w t (files w) p [Returned c ok])) by (apply dirty_goes; [congruence..|]; intros q c1 E; right; congruence).
      apply kinv_pc; auto; rewrite TH; auto.
    + apply kinv_pc; auto. discriminate.
  - assert (DM : forall d' p e, dirty w -> dirty (goes w t d' p e)) by (intros d' p0 e; apply dirty_goes; congruence).
    destruct a as [c|o l|m|m| | |k| | |]; try discriminate S.
    + destruct (length (data (files w) i) <=? length got)%nat; [|discriminate]. injection S as <-. apply kinv_pc; auto; [discriminate|]. right. rewrite TH. discriminate.
    + destruct ((0 <? k) && (k <=? length (skipn (length got) (data (files w) i))))%nat; [|discriminate]. injection S as <-. apply kinv_pc; auto; [discriminate|]. right. rewrite TH. discriminate.
    + injection S as <-. apply kinv_pc; auto. discriminate.
  - discriminate.
  - discriminate.
Qed.
Lemma kinv_run len d : forall tr w r w', inv len w r -> kinv d w -> run len w tr = Some w' -> kinv d w'.
Proof.
  induction tr as [|(t, a) tr IH]; intros w r w' V K R; cbn [run] in R; [injection R as <-; exact K|]. destruct (step len w t a) as [w1|] eqn:S; [|discriminate]. cbn [bind] in R. destruct (inv_step len w r t a w1 V S) as (e1 & r1 & _ & _ & V1). apply (IH w1 r1 w' V1); [|exact R]. exact (kinv_step len d w r t a w1 V K S).
Qed.
Lemma kinv_start d : kinv d (start d).
Proof. split; [intros n _ _; split; [reflexivity|discriminate]|]. split; [reflexivity|]. split; [cbn; lia|]. split; [discriminate|]. right. intros n _ E1 E2. cbn in E2. contradiction. Qed.
