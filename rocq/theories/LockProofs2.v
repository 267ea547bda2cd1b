From Coq Require Import ZArith List Bool Lia Arith.
From Verif Require Import CInt CUtil DiskModel LockModel LockSpec LockProofs.
Import ListNotations.
Local Open Scope Z_scope.

(** * Exclusion *)

Lemma app_one_inv {A} (h h1 h2 : list A) e x : h ++ [e] = h1 ++ x :: h2 -> (exists h3, h2 = h3 ++ [e] /\ h = h1 ++ x :: h3) \/ h2 = [] /\ e = x /\ h = h1.
Proof.
  intros E. destruct h2 as [|y h2] using rev_ind.
  - right. apply app_inj_tail in E as (-> & ->). auto.
  - left. exists h2. rewrite app_comm_cons, app_assoc in E. apply app_inj_tail in E as (-> & ->). auto.
Qed.
Lemma holds_snoc h t c u e : holds_by (h ++ [(u, e)]) t c -> holds_by h t c /\ (u, e) <> (t, Called UNLOCK) \/ (u, e) = (t, Returned c 0) /\ (c = LOCK \/ c = PRELOCK).
Proof.
  intros (K & h1 & h2 & E & N). apply app_one_inv in E as [(h3 & -> & ->)|(-> & E & ->)].
  - left. split; [|intros EQ; apply N; rewrite EQ; apply in_app_iff; right; left; reflexivity]. split; [exact K|]. exists h1, h3. split; [reflexivity|]. intros I. apply N, in_app_iff. auto.
  - right. auto.
Qed.
Lemma holds_keep h t c u e : holds_by h t c -> (u, e) <> (t, Called UNLOCK) -> holds_by (h ++ [(u, e)]) t c.
Proof.
  intros (K & h1 & h2 & -> & N) NE. split; [exact K|]. exists h1, (h2 ++ [(u, e)]). split; [rewrite <- app_assoc; reflexivity|]. intros I. apply in_app_iff in I as [I|[I|[]]]; auto.
Qed.

(** One that has the lock, or is about to know, or is about to give it back. *)
Definition owner (w : world) (t : nat) : Prop :=
  holds (history w) t \/ (exists n, threads w t = Cleanup LOCK n 0) \/ threads w t = Leaving LOCK 0 \/ threads w t = Leaving PRELOCK 0 \/ threads w t = Begin UNLOCK.
Definition xinv (w : world) : Prop :=
  (forall t u, owner w t -> owner w u -> t = u) /\ (forall t, owner w t -> entry (files w) LOCKFILE <> None).

Lemma create_entry d n d' i m : d_create d n = Some (d', i) -> entry d n = None /\ entry d' m = if m =? n then Some i else entry d m.
Proof. unfold d_create. intros E. destruct (entry d n) eqn:N; [discriminate|]. injection E as <- <-. split; reflexivity. Qed.
Lemma unlink_entry d n d' m : d_unlink d n = Some d' -> entry d n <> None /\ entry d' m = if m =? n then None else entry d m.
Proof. unfold d_unlink. intros E. destruct (entry d n) eqn:N; [|discriminate]. injection E as <-. split; [discriminate|reflexivity]. Qed.
Lemma installs_some c d n d' : installs c d n = Some d' -> n <> LOCKFILE -> exists i, entry d n = Some i /\ entry d' LOCKFILE = Some i /\ (forall m, m <> LOCKFILE -> m <> n -> entry d' m = entry d m) /\
  (entry d' n = None /\ (c = LOCK -> entry d LOCKFILE = None) \/ c <> LOCK /\ entry d' n = entry d LOCKFILE) /\ data d' = data d /\ spare d' = spare d.
Proof.
  intros E N. destruct c; try discriminate; cbn [installs] in E.
  - unfold d_rename_noreplace in E. destruct (entry d n) as [i|] eqn:EN; [|discriminate]. destruct (entry d LOCKFILE) eqn:E0; [discriminate|]. injection E as <-. exists i. unfold set_entry. cbn [entry data spare]. rewrite ?(proj2 (Z.eqb_neq LOCKFILE n)) by congruence. rewrite ?Z.eqb_refl.
    split; [reflexivity|]. split; [reflexivity|]. split; [|split; [|split; reflexivity]].
    + intros m H1 H2. destruct (Z.eqb_spec m n); [contradiction|]. destruct (Z.eqb_spec m LOCKFILE); [contradiction|reflexivity].
    + left. auto.
  - unfold d_rename_exchange in E. destruct (entry d n) as [i|] eqn:EN; [|discriminate]. destruct (entry d LOCKFILE) as [j|] eqn:E0; [|discriminate]. injection E as <-. exists i. unfold set_entry. cbn [entry data spare]. rewrite ?(proj2 (Z.eqb_neq LOCKFILE n)) by congruence. rewrite ?Z.eqb_refl.
    split; [reflexivity|]. split; [reflexivity|]. split; [|split; [|split; reflexivity]].
    + intros m H1 H2. destruct (Z.eqb_spec m n); [contradiction|]. destruct (Z.eqb_spec m LOCKFILE); [contradiction|reflexivity].
    + right. split; [discriminate|]. reflexivity.
  - unfold d_rename in E. destruct (entry d n) as [i|] eqn:EN; [|discriminate]. exists i.
    assert (G : d' = d /\ entry d LOCKFILE = Some i \/ d' = set_entry (set_entry d LOCKFILE (Some i)) n None).
    { destruct (entry d LOCKFILE) as [j|] eqn:E0; [|injection E as <-; auto]. destruct (Z.eqb_spec i j); injection E as <-; [left; subst j; auto|right; reflexivity]. }
    destruct G as [(-> & E0)| -> ].
    + split; [reflexivity|]. split; [exact E0|]. split; [reflexivity|]. split; [right; split; [discriminate|congruence]|split; reflexivity].
    + unfold set_entry. cbn [entry data spare]. rewrite ?(proj2 (Z.eqb_neq LOCKFILE n)) by congruence. rewrite ?Z.eqb_refl. split; [reflexivity|]. split; [reflexivity|]. split; [|split; [|split; reflexivity]].
      * intros m H1 H2. destruct (Z.eqb_spec m n); [contradiction|]. destruct (Z.eqb_spec m LOCKFILE); [contradiction|reflexivity].
      * left. split; [reflexivity|discriminate].
Qed.

(** A step that makes no new owner, and keeps the file. *)
Lemma xinv_keep w w' : (forall u, owner w' u -> owner w u) -> (entry (files w') LOCKFILE = None -> entry (files w) LOCKFILE = None) -> xinv w -> xinv w'.
Proof.
  intros O F (X1 & X2). split; [intros t u OT OU; apply X1; apply O; assumption|]. intros t OT E. exact (X2 t (O t OT) (F E)).
Qed.
Lemma owner_other w w' t u : u <> t -> threads w' u = threads w u -> (history w' = history w \/ exists e, history w' = history w ++ [(t, e)]) -> owner w' u -> owner w u.
Proof.
  intros N T H O. unfold owner in *. rewrite T in O. destruct O as [(c & O)|O]; [left|right; exact O]. exists c. destruct H as [H|(e & H)]; rewrite H in O; [exact O|]. apply holds_snoc in O as [(O & _)|(E & _)]; [exact O|congruence].
Qed.
Lemma xinv_step pid w t a w' : hinv w -> ninv w -> xinv w -> well_behaved (history w') -> stepr pid w t a w' -> xinv w'.
Proof.
  intros HV NV XV (WB1 & WB2) S. pose proof XV as (X1 & X2).
  assert (OO : forall u, u <> t -> owner w' u -> owner w u) by (intros u N O; apply (owner_other w w' t u N (step_other pid w t a w' u S N) (step_history pid w t a w' S) O)).
  assert (NF : in_call (threads w t) <> Some FILE).
  { intros C. pose proof (hinv_called w t FILE HV C) as I. apply (WB2 t). destruct (step_history pid w t a w' S) as [->|(e & ->)]; [exact I|apply in_app_iff; auto]. }
  assert (KEEP : (owner w' t -> owner w t) -> (entry (files w') LOCKFILE = None -> entry (files w) LOCKFILE = None) -> xinv w').
  { intros O F. apply (xinv_keep w w'); [|exact F|exact XV]. intros u OU. destruct (Nat.eq_dec u t) as [->|N]; [apply O, OU|apply OO; assumption]. }
  (* A step that takes the lock. *)
  assert (TAKE : entry (files w) LOCKFILE = None -> entry (files w') LOCKFILE <> None -> xinv w').
  { intros E F. assert (NO : forall u, ~ owner w u) by (intros u O; exact (X2 u O E)). assert (A : forall u, owner w' u -> u = t) by (intros u O; destruct (Nat.eq_dec u t) as [->|N]; [reflexivity|destruct (NO u (OO u N O))]).
    split; [intros u v OU OV; rewrite (A u OU), (A v OV); reflexivity|intros u _; exact F]. }
  destruct S.
  - apply KEEP; [|cbn; auto]. unfold owner. rewrite goes_same. cbn [history goes]. intros [O|[(n & O)|[O|[O|O]]]]; [left; exact O|discriminate..].
  - apply KEEP; [|cbn; auto]. unfold owner. rewrite notes_threads, goes_same. cbn [history goes notes]. intros [(k & O)|[(n & O)|[O|[O|O]]]]; try discriminate.
    + apply holds_snoc in O as [(O & _)|(E & _)]; [left; exists k; exact O|discriminate].
    + injection O as ->. left. apply (WB1 (history w) [] t). cbn. reflexivity.
  - destruct (create_entry _ _ _ _ LOCKFILE H2) as (_ & E). apply KEEP.
    + unfold owner. rewrite goes_same. cbn [history goes]. intros [O|[(m & O)|[O|[O|O]]]]; [left; exact O|discriminate..].
    + cbn [files goes]. rewrite E. destruct (LOCKFILE =? n) eqn:Q; [apply Z.eqb_eq in Q; congruence|auto].
  - apply KEEP; [|cbn; auto]. unfold owner. rewrite goes_same. cbn [history goes]. intros [O|[(m & O)|[O|[O|O]]]]; [left; exact O|discriminate..].
  - apply KEEP; [|cbn; auto]. unfold owner. rewrite goes_same. cbn [history goes]. intros [O|[(m & O)|[O|[O|O]]]]; [left; exact O|discriminate..].
  - apply KEEP; [|cbn; auto]. unfold owner. rewrite goes_same. cbn [history goes]. intros [O|[(m & O)|[O|[O|O]]]]; [left; exact O|discriminate..].
  - apply KEEP; [|cbn; auto]. unfold owner. rewrite goes_same. cbn [history goes]. intros [O|[(m & O)|[O|[O|O]]]]; [left; exact O|discriminate..].
  - apply KEEP; [|cbn; auto]. unfold owner. rewrite goes_same. cbn [history goes]. intros [O|[(m & O)|[O|[O|O]]]]; [left; exact O|discriminate..].
  - apply KEEP; [|cbn; auto]. unfold owner. rewrite goes_same. cbn [history goes]. intros [O|[(m & O)|[O|[O|O]]]]; [left; exact O|discriminate..].
  - destruct (NV t n) as (N0 & _); [rewrite H; reflexivity|]. destruct (installs_some _ _ _ _ H0 N0) as (i & _ & E0 & _ & [(_ & L)|(NL & _)] & _).
    + destruct c; try discriminate H0; [apply TAKE; [apply L; reflexivity|cbn [files goes]; congruence]| |destruct NF; rewrite H; reflexivity].
      apply KEEP; [|cbn [files goes]; congruence]. unfold owner. rewrite goes_same. cbn [history goes]. intros [O|[(m & O)|[O|[O|O]]]]; [left; exact O|discriminate..].
    + apply KEEP; [|cbn [files goes]; congruence]. unfold owner. rewrite goes_same. cbn [history goes]. intros [O|[(m & O)|[O|[O|O]]]]; [left; exact O|congruence|discriminate..].
  - apply KEEP; [|cbn; auto]. unfold owner. rewrite goes_same. cbn [history goes]. intros [O|[(m & O)|[O|[O|O]]]]; [left; exact O|discriminate..].
  - destruct (NV t n) as (N0 & _); [rewrite H; reflexivity|]. destruct (unlink_entry _ _ _ LOCKFILE H0) as (_ & E). apply KEEP.
    + unfold owner. rewrite goes_same, H. cbn [history goes]. intros [O|[(m & O)|[O|[O|O]]]]; [left; exact O|discriminate| |injection O as -> _; specialize (NV t n); rewrite H in NV; destruct (NV eq_refl) as (_ & k & K1 & K2); injection K1 as <-; discriminate|discriminate]. injection O as -> ->. right. left. eauto.
    + cbn [files goes]. rewrite E. destruct (LOCKFILE =? n) eqn:Q; [apply Z.eqb_eq in Q; congruence|auto].
  - apply KEEP; [|cbn; auto].
    unfold owner. rewrite goes_same, H. cbn [history goes]. intros [O|[(m & O)|[O|[O|O]]]]; [left; exact O|discriminate| |injection O as -> _; specialize (NV t n); rewrite H in NV; destruct (NV eq_refl) as (_ & k & K1 & K2); injection K1 as <-; discriminate|discriminate]. injection O as -> ->. right. left. eauto.
  - destruct (create_entry _ _ _ _ LOCKFILE H0) as (E0 & E). apply TAKE; [exact E0|]. cbn [files goes]. rewrite E, Z.eqb_refl. discriminate.
  - apply KEEP; [|cbn; auto]. unfold owner. rewrite goes_same. cbn [history goes]. intros [O|[(m & O)|[O|[O|O]]]]; [left; exact O|discriminate..].
  - assert (OT : owner w t) by (unfold owner; auto). assert (NH : ~ holds (history w) t).
    { intros (c & _ & h1 & h2 & E & N). destruct (HV t UNLOCK) as (h3 & h4 & E2 & Q); [rewrite H; reflexivity|]. rewrite E2 in E.
      (* the call of unlock comes after the return *)
      clear -E N Q. revert h1 E. induction h3 as [|x h3 IH]; intros h1 E; destruct h1 as [|y h1]; cbn [app] in E.
      - discriminate.
      - injection E as _ E. unfold quiet in Q. rewrite E, find_app_ in Q. destruct (find _ h1); [discriminate|]. cbn in Q. rewrite Nat.eqb_refl in Q. discriminate.
      - injection E as _ E. apply N. rewrite <- E. apply in_app_iff. right. left. reflexivity.
      - injection E as _ E. exact (IH h1 E). }
    split.
    + intros u v OU OV. assert (A : forall x, owner (goes w t d' (Leaving UNLOCK 0)) x -> False); [|destruct (A u OU)].
      intros x OX. destruct (Nat.eq_dec x t) as [->|N]; [|apply N, X1; [apply OO; assumption|exact OT]]. unfold owner in OX. rewrite goes_same in OX. cbn [history goes] in OX. destruct OX as [O|[(m & O)|[O|[O|O]]]]; [exact (NH O)|discriminate..].
    + intros u OU. exfalso. destruct (Nat.eq_dec u t) as [->|N]; [|apply N, X1; [apply OO; assumption|exact OT]]. unfold owner in OU. rewrite goes_same in OU. cbn [history goes] in OU. destruct OU as [O|[(m & O)|[O|[O|O]]]]; [exact (NH O)|discriminate..].
  - apply KEEP; [|cbn; auto]. unfold owner. rewrite goes_same. cbn [history goes]. intros [O|[(m & O)|[O|[O|O]]]]; [left; exact O|discriminate..].
  - apply KEEP; [|cbn; auto]. unfold owner. rewrite goes_same. cbn [history goes]. intros [O|[(m & O)|[O|[O|O]]]]; [left; exact O|discriminate..].
  - apply KEEP; [|cbn; auto]. unfold owner. rewrite goes_same. cbn [history goes]. intros [O|[(m & O)|[O|[O|O]]]]; [left; exact O|discriminate..].
  - apply KEEP; [|cbn; auto]. unfold owner. rewrite notes_threads, goes_same, H. cbn [history goes notes]. intros [(k & O)|[(n & O)|[O|[O|O]]]]; try discriminate. apply holds_snoc in O as [(O & _)|(E & K)]; [left; exists k; exact O|]. injection E as -> ->. destruct K as [->| ->]; auto.
Qed.

Lemma well_behaved_prefix h more : well_behaved (h ++ more) -> well_behaved h.
Proof.
  intros (W1 & W2). split; [|intros t I; apply (W2 t), in_app_iff; auto]. intros h1 h2 t E. apply (W1 h1 (h2 ++ more) t). rewrite E, <- app_assoc. reflexivity.
Qed.
Lemma xinv_run pid : forall tr w w', hinv w -> ninv w -> xinv w -> well_behaved (history w') -> run pid w tr = Some w' -> xinv w' /\ hinv w' /\ ninv w'.
Proof.
  induction tr as [|(t, a) tr IH]; intros w w' HV NV XV WB E; cbn [run] in E; [injection E as <-; auto|].
  destruct (step pid w t a) as [w1|] eqn:S; [|discriminate]. cbn [bind] in E. apply step_stepr in S. destruct (run_history pid tr w1 w' E) as (more & H).
  apply (IH w1 w'); [eapply hinv_step; eassumption|eapply ninv_step; eassumption| |exact WB|exact E]. eapply xinv_step; try eassumption. apply (well_behaved_prefix _ more). rewrite <- H. exact WB.
Qed.
Lemma hinv_start d : hinv (start d). Proof. intros t c C. discriminate. Qed.
Lemma ninv_start d : ninv (start d). Proof. intros t n U. destruct U. Qed.
Lemma xinv_start d : xinv (start d).
Proof.
  assert (N : forall t, ~ owner (start d) t). { intros t [(c & _ & h1 & h2 & E & _)|[(n & O)|[O|[O|O]]]]; try discriminate. destruct h1; discriminate. }
  split; intros t; intros; exfalso; eapply N; eassumption.
Qed.
