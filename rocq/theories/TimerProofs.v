(** The invariant of a timer, its threads and its callers. *)

From Coq Require Import ZArith List Bool Arith Lia.
From Verif Require Import CUtil CInt TimerModel TimerSpec.
Import ListNotations.
Local Open Scope Z_scope.

Record core (p : bool) (st : status) (cx : Z) (arm del : bool) (r : ref) (ph : phase) (pl : option place) : Prop := {
  c_run : running r = match ph with Inside _ => true | _ => false end;
  c_ph : match ph with Holding (Some c) => may r = Some c /\ st <> IDLE | Inside _ => st <> IDLE | Holding None => p = true \/ st <> ARM | _ => True end;
  c_may : st = ARM -> match ph with Inside _ | After => p = true -> may r = Some cx | _ => may r = Some cx end;
  c_rest : rest r = true -> st = IDLE /\ may r = None;
  c_one : p = false -> (st = IDLE -> ph = Nobody /\ arm = false) /\ (ph <> Nobody -> arm = false);
  c_pl : match pl with
         | None => st = DISARM -> failed r = true
         | Some Out => False
         | Some (Setting _) => st = ARM /\ (p = false -> ph = Nobody /\ arm = false)
         | Some Asleep => st = DISARM
         | Some (Ending true) => st = IDLE
         | Some Awake | Some (Ending false) => st <> ARM
         end;
  c_failed : failed r = true -> st <> ARM;
  c_del : del = over r;
  c_over : over r = true -> st = IDLE /\ ph = Nobody /\ arm = false /\ pl = None }.
Definition rel (p : bool) (w : world) (r : ref) : Prop :=
  periodic w = p /\ exists t,
    (forall s, s <> t -> threads w s = Nobody) /\
    match busy r with
    | None => (forall j, callers w j = Out) /\ core p (state w) (context w) (armed w) (deleted w) r (threads w t) None
    | Some i => (forall j, j <> i -> callers w j = Out) /\ core p (state w) (context w) (armed w) (deleted w) r (threads w t) (Some (callers w i))
    end.

Definition good (p : bool) (r : ref) (o : outcome) : Prop :=
  match o with
  | Does w' e => exists r', observe p r e = Some r' /\ rel p w' r'
  | Disabled => True
  | Undefined => False
  end.

Lemma upd_same {A} (f : nat -> A) i x : (if Nat.eqb i i then x else f i) = x.
Proof. rewrite Nat.eqb_refl. reflexivity. Qed.
Lemma upd_other {A} (f : nat -> A) i j x : j <> i -> (if Nat.eqb j i then x else f j) = f j.
Proof. intros H. destruct (Nat.eqb_spec j i); [contradiction|reflexivity]. Qed.

Ltac facts := repeat match goal with H : _ /\ _ |- _ => destruct H | H : exists _, _ |- _ => destruct H | H : _ \/ _ |- _ => destruct H end.
Ltac crush :=
  repeat match goal with
  | |- _ /\ _ => split
  | |- _ -> _ => intro
  | H : ?a = ?a -> _ |- _ => specialize (H eq_refl)
  | H : true = false -> _ |- _ => clear H
  | H : false = true -> _ |- _ => clear H
  | H : _ /\ _ |- _ => destruct H
  end; subst; try congruence; try tauto; auto.

Ltac finish := solve [crush; crush | right; congruence | match goal with H : _ <> _ -> _ |- _ => apply H; congruence end | exfalso; match goal with H : _ = _ -> _ = _ /\ _ |- _ => destruct H; congruence end].

Lemma next_good p w r i : rel p w r -> good p r (next w i).
Proof.
  intros (P & t & Ot & B). destruct w as [st cx pe arm del th ca]. destruct r as [ma ru re bu fa ov]. cbn [periodic state context armed deleted threads callers busy] in *. subst pe.
  unfold next. cbn [callers deleted state]. destruct bu as [j|]; [|destruct B as (O & _); rewrite O; exact I]. destruct B as (O & C).
  destruct (Nat.eq_dec i j) as [<- |N]; [|rewrite O by assumption; exact I]. destruct C as [C1 C2 C3 C4 C5 C6 C7 C8 C9]. cbn [running may rest failed over] in *.
  destruct (ca i) as [|po| | |ok] eqn:E; try exact I; (assert (del = false) as -> by (destruct ov; [destruct C9 as (_ & _ & _ & C9); [reflexivity|discriminate]|congruence]); cbn [good]).
  - cbn [observe busy]. rewrite Nat.eqb_refl. eexists. split; [reflexivity|]. split; [reflexivity|]. exists t. split; [exact Ot|]. cbn [busy]. split.
    + intros j. cbn [go callers set_armed]. destruct (Nat.eqb_spec j i); [reflexivity|auto].
    + cbn. constructor; cbn; crush.
  - eexists. split; [reflexivity|]. split; [reflexivity|]. exists t. split; [exact Ot|]. cbn [busy]. split.
    + intros j Nj. cbn [go callers]. rewrite upd_other by assumption. auto.
    + cbn [go callers state context armed deleted threads]. rewrite upd_same. destruct st; cbn [is]; constructor; cbn; crush.
  - cbn [observe busy]. rewrite Nat.eqb_refl. cbn [negb running]. destruct ok.
    + subst st. assert (ru = false) as -> by (rewrite C1; destruct (th t); congruence). eexists. split; [reflexivity|]. split; [reflexivity|]. exists t. split; [exact Ot|]. cbn [busy]. split.
      * intros j. cbn [go callers set_armed]. destruct (Nat.eqb_spec j i); [reflexivity|auto].
      * cbn. destruct (th t) as [| |[c|]|c|]; constructor; cbn; crush.
    + eexists. split; [reflexivity|]. split; [reflexivity|]. exists t. split; [exact Ot|]. cbn [busy]. split.
      * intros j. cbn [go callers set_armed]. destruct (Nat.eqb_spec j i); [reflexivity|auto].
      * cbn. constructor; cbn; crush.
Qed.
Lemma start_good p w r i c ticks : rel p w r -> permitted p w r (Start i c ticks) -> good p r (start w i c ticks).
Proof.
  intros (P & t & Ot & B) Q. cbn [permitted] in Q. destruct w as [st cx pe arm del th ca]; destruct r as [ma ru re bu fa ov]; cbn [periodic state context armed deleted threads callers busy rest over failed] in *; subst pe. destruct Q as (-> & -> & ->). destruct B as (O & [C1 C2 C3 C4 C5 C6 C7 C8 C9]). cbn [running may rest failed over] in *.
  unfold start. cbn [deleted callers]. subst del. rewrite O. cbn [good observe]. destruct C4 as (-> & ->); [reflexivity|]. eexists. split; [reflexivity|]. split; [reflexivity|]. exists t. split; [exact Ot|]. cbn [busy]. split.
  - intros j Nj. cbn [go callers]. rewrite upd_other by assumption. auto.
  - cbn [go callers state context armed deleted threads running]. rewrite upd_same. destruct (th t) as [| |[d|]|d|]; constructor; cbn; crush; left; destruct p; crush.
Qed.
Lemma stop_good p w r i : rel p w r -> permitted p w r (Stop i) -> good p r (stop w i).
Proof.
  intros (P & t & Ot & B) Q. cbn [permitted] in Q. destruct w as [st cx pe arm del th ca]; destruct r as [ma ru re bu fa ov]; cbn [periodic state context armed deleted threads callers busy rest over failed] in *; subst pe. destruct Q as (-> & -> & ->). destruct B as (O & [C1 C2 C3 C4 C5 C6 C7 C8 C9]). cbn [running may rest failed over] in *.
  unfold stop. cbn [deleted callers state]. subst del. rewrite O. destruct st; cbn [is]; cbn [good observe];
  [ | | exfalso; discriminate (C6 eq_refl)]; (eexists; split; [reflexivity|]; split; [reflexivity|]; exists t; split; [exact Ot|]; cbn [busy]; split;
  [intros j Nj; cbn [go callers set_state]; rewrite upd_other by assumption; auto
  |cbn [go callers state context armed deleted threads running set_state]; rewrite upd_same; destruct (th t) as [| |[d|]|d|]; constructor; cbn; crush]).
  all: crush.
Qed.
Lemma spurious_good p w r i : rel p w r -> good p r (spurious w i).
Proof.
  intros (P & t & Ot & B). destruct w as [st cx pe arm del th ca]; destruct r as [ma ru re bu fa ov]; cbn [periodic state context armed deleted threads callers busy rest over failed] in *; subst pe. unfold spurious. cbn [callers]. destruct bu as [j|]; [|destruct B as (O & _); rewrite O; exact I]. destruct B as (O & C).
  destruct (Nat.eq_dec i j) as [<- |N]; [|rewrite O by assumption; exact I]. destruct C as [C1 C2 C3 C4 C5 C6 C7 C8 C9]. cbn [running may rest failed over] in *.
  destruct (ca i) as [|po| | |ok] eqn:E; try exact I. cbn [good observe]. eexists; split; [reflexivity|]; split; [reflexivity|]; exists t; split; [exact Ot|]; cbn [busy]; split;
  [intros j Nj; cbn [go callers]; rewrite upd_other by assumption; auto|]. cbn [go callers state context armed deleted threads running]. rewrite upd_same. constructor; cbn; crush.
  all: crush.
Qed.
Lemma timeout_good p w r i : rel p w r -> good p r (timeout w i).
Proof.
  intros (P & t & Ot & B). destruct w as [st cx pe arm del th ca]; destruct r as [ma ru re bu fa ov]; cbn [periodic state context armed deleted threads callers busy rest over failed] in *; subst pe. unfold timeout. cbn [callers]. destruct bu as [j|]; [|destruct B as (O & _); rewrite O; exact I]. destruct B as (O & C).
  destruct (Nat.eq_dec i j) as [<- |N]; [|rewrite O by assumption; exact I]. destruct C as [C1 C2 C3 C4 C5 C6 C7 C8 C9]. cbn [running may rest failed over] in *.
  destruct (ca i) as [|po| | |ok] eqn:E; try exact I; (cbn [good observe]; eexists; split; [reflexivity|]; split; [reflexivity|]; exists t; split; [exact Ot|]; cbn [busy]; split;
  [intros j Nj; cbn [go callers]; rewrite upd_other by assumption; auto|]; cbn [go callers state context armed deleted threads running]; rewrite upd_same; constructor; cbn; crush).
  all: crush.
Qed.
Lemma get_state_good p w r : rel p w r -> permitted p w r GetState -> good p r (get_state w).
Proof.
  intros (P & t & Ot & B) Q. cbn [permitted] in Q. destruct w as [st cx pe arm del th ca]; destruct r as [ma ru re bu fa ov]; cbn [periodic state context armed deleted threads callers busy rest over failed] in *; subst pe. subst ov. unfold get_state. cbn [deleted state].
  assert (exists pl, core p st cx arm del (Ref ma ru re bu fa false) (th t) pl /\ (pl = None -> bu = None)) as (pl & C & Np) by (destruct bu as [j|]; destruct B as (O & C); eexists; (split; [exact C|]); [discriminate|reflexivity]).
  pose proof C as [C1 C2 C3 C4 C5 C6 C7 C8 C9]. cbn [running may rest failed over] in *. subst del. cbn [good].
  destruct st; cbn [observe running rest failed busy].
  - assert (ru = false) as -> by (rewrite C1; destruct (th t); congruence). eexists. split; [reflexivity|]. split; [reflexivity|]. exists t. split; [exact Ot|]. cbn [busy].
    destruct bu as [j|]; destruct B as (O & [D1 D2 D3 D4 D5 D6 D7 D8 D9]); cbn [running may rest failed over] in *; (split; [exact O|]); cbn; destruct (th t) as [| |[d|]|d|]; constructor; cbn; crush.
  - destruct re; [destruct C4; [reflexivity|discriminate]|]. destruct fa; [exfalso; apply C7; reflexivity|]. cbn [orb]. eexists. split; [reflexivity|]. split; [reflexivity|]. exists t. split; [exact Ot|exact B].
  - destruct re; [destruct C4; [reflexivity|discriminate]|]. destruct bu as [j|].
    + eexists. split; [reflexivity|]. split; [reflexivity|]. exists t. split; [exact Ot|exact B].
    + pose proof B as (O & [D1 D2 D3 D4 D5 D6 D7 D8 D9]). cbn [failed] in *. rewrite (D6 eq_refl) in *. cbn [andb negb]. eexists. split; [reflexivity|]. split; [reflexivity|]. exists t. split; [exact Ot|exact B].
Qed.
Lemma fini_good p w r : rel p w r -> permitted p w r Fini -> good p r (fini w).
Proof.
  intros (P & t & Ot & B) Q. cbn [permitted] in Q. destruct w as [st cx pe arm del th ca]; destruct r as [ma ru re bu fa ov]; cbn [periodic state context armed deleted threads callers busy rest over failed] in *; subst pe. destruct Q as (-> & -> & -> & ->). destruct B as (O & [C1 C2 C3 C4 C5 C6 C7 C8 C9]). cbn [running may rest failed over] in *.
  unfold fini. cbn [deleted]. subst del. cbn [good observe]. eexists. split; [reflexivity|]. split; [reflexivity|]. exists t. split; [exact Ot|]. cbn [busy]. split; [exact O|]. cbn. constructor; cbn; crush.
  all: crush.
Qed.
Lemma expire_good p w r s : rel p w r -> permitted p w r (Expire s) -> good p r (expire w s).
Proof.
  intros (P & t & Ot & B) Q. cbn [permitted] in Q. destruct w as [st cx pe arm del th ca]; destruct r as [ma ru re bu fa ov]; cbn [periodic state context armed deleted threads callers busy rest over failed] in *; subst pe. unfold expire. cbn [threads armed]. destruct (th s) eqn:E; try exact I. destruct arm; [|exact I]. cbn [good observe].
  assert (Nb : th t = Nobody).
  { destruct p; [apply Q; reflexivity|]. assert (exists pl, core false st cx true del (Ref ma ru re bu fa ov) (th t) pl) as (pl & C) by (destruct bu as [j|]; destruct B as (O & C); eexists; exact C).
    destruct (th t) eqn:Et; [reflexivity| | | |]; (exfalso; assert (X : true = false) by (apply (proj2 (c_one _ _ _ _ _ _ _ _ C eq_refl)); congruence); discriminate X). }
  eexists. split; [reflexivity|]. split; [reflexivity|]. exists s. split.
  - intros u Nu. cbn [move threads set_armed]. rewrite upd_other by assumption. destruct (Nat.eq_dec u t) as [-> |]; [exact Nb|]. apply Ot. assumption.
  - cbn [busy move callers state context armed deleted threads set_armed periodic]. rewrite upd_same. rewrite Nb in B. destruct bu as [j|]; destruct B as (O & [C1 C2 C3 C4 C5 C6 C7 C8 C9]); cbn [running may rest failed over] in *; (split; [exact O|]); constructor; cbn; crush.
    all: try (destruct (ca j) as [| | | |[]]; crush; crush).
    all: crush; destruct p; crush; crush.
Qed.
Lemma proceed_good p w r s : rel p w r -> good p r (proceed w s).
Proof.
  intros (P & t & Ot & B). destruct w as [st cx pe arm del th ca]; destruct r as [ma ru re bu fa ov]; cbn [periodic state context armed deleted threads callers busy rest over failed] in *; subst pe.
  unfold proceed. cbn [threads deleted state context periodic]. destruct (Nat.eq_dec s t) as [-> |N]; [|rewrite Ot by assumption; exact I].
  assert (D : th t = Nobody \/ del = false).
  { assert (exists pl, core p st cx arm del (Ref ma ru re bu fa ov) (th t) pl) as (pl & C) by (destruct bu as [j|]; destruct B as (O & C); eexists; exact C).
    destruct del; [|auto]. left. apply (c_over _ _ _ _ _ _ _ _ C). cbn [over]. symmetry. apply (c_del _ _ _ _ _ _ _ _ C). }
  destruct (th t) as [| |[d|]|d|] eqn:E; [exact I|..]; (destruct D as [D| ->]; [discriminate D|]); cbn [good].
  - eexists. split; [reflexivity|]. split; [reflexivity|]. exists t. split.
    + intros u Nu. cbn [move threads]. rewrite upd_other by assumption. auto.
    + cbn [busy move callers state context armed deleted threads periodic]. rewrite upd_same. destruct bu as [j|]; destruct B as (O & [C1 C2 C3 C4 C5 C6 C7 C8 C9]); cbn [running may rest failed over] in *; (split; [exact O|]); destruct st; cbn [is]; constructor; cbn; crush; crush.
      all: try (destruct (ca j) as [| | | |[]]; crush; crush).
      all: try destruct p; finish.
  - destruct ov; [exfalso; destruct bu as [j|]; destruct B as (O & C); destruct (c_over _ _ _ _ _ _ _ _ C eq_refl) as (_ & X & _); discriminate X|].
    assert (ma = Some d /\ ru = false) as (-> & ->) by (destruct bu as [j|]; destruct B as (O & C); split; [exact (proj1 (c_ph _ _ _ _ _ _ _ _ C))|exact (c_run _ _ _ _ _ _ _ _ C)|exact (proj1 (c_ph _ _ _ _ _ _ _ _ C))|exact (c_run _ _ _ _ _ _ _ _ C)]).
    cbn [observe may running over negb andb rest busy failed]. rewrite Z.eqb_refl. cbn [andb]. eexists. split; [reflexivity|]. split; [reflexivity|]. exists t. split.
    + intros u Nu. cbn [move threads]. rewrite upd_other by assumption. auto.
    + cbn [busy move callers state context armed deleted threads periodic]. rewrite upd_same. destruct bu as [j|]; destruct B as (O & [C1 C2 C3 C4 C5 C6 C7 C8 C9]); cbn [running may rest failed over] in *; (split; [exact O|]); destruct st; constructor; cbn; crush; crush.
      all: try (destruct (ca j) as [| | | |[]]; crush; crush).
      all: try destruct p; finish.
  - eexists. split; [reflexivity|]. split; [reflexivity|]. exists t. split.
    + intros u Nu. cbn [move threads]. rewrite upd_other by assumption. auto.
    + cbn [busy move callers state context armed deleted threads periodic]. rewrite upd_same. destruct bu as [j|]; destruct B as (O & [C1 C2 C3 C4 C5 C6 C7 C8 C9]); cbn [running may rest failed over] in *; (split; [exact O|]); destruct st; constructor; cbn; crush; crush.
      all: try (destruct (ca j) as [| | | |[]]; crush; crush).
      all: try destruct p; finish.
  - assert (ru = true) as -> by (destruct bu as [j|]; destruct B as (O & C); exact (c_run _ _ _ _ _ _ _ _ C)).
    cbn [observe may running over rest busy failed]. eexists. split; [reflexivity|]. split; [reflexivity|]. exists t. split.
    + intros u Nu. cbn [move threads]. rewrite upd_other by assumption. auto.
    + cbn [busy move callers state context armed deleted threads periodic]. rewrite upd_same. destruct bu as [j|]; destruct B as (O & [C1 C2 C3 C4 C5 C6 C7 C8 C9]); cbn [running may rest failed over] in *; (split; [exact O|]); destruct st; constructor; cbn; crush; crush.
      all: try (destruct (ca j) as [| | | |[]]; crush; crush).
      all: try destruct p; finish.
  - assert (Q : forall w', (w' = move (World st cx p arm false th ca) t Nobody /\ st <> DISARM /\ (p = false -> st = IDLE)) \/ (w' = signal (move (set_state (World st cx p arm false th ca) IDLE) t Nobody) /\ st <> IDLE /\ (p = true -> st = DISARM)) -> rel p w' (Ref ma ru re bu fa ov)).
    { intros w' [(-> & S1 & S2)|(-> & S1 & S2)]; (split; [reflexivity|]; exists t; split; [intros u Nu; cbn [move threads signal set_state]; rewrite upd_other by assumption; auto|]);
      cbn [busy signal set_state move callers state context armed deleted threads periodic]; rewrite upd_same.
      - destruct bu as [j|]; destruct B as (O & [C1 C2 C3 C4 C5 C6 C7 C8 C9]); cbn [running may rest failed over] in *; (split; [exact O|]); destruct p; destruct st; constructor; cbn; crush; crush.
        all: try (destruct (ca j) as [| | | |[]]; crush; crush).
        all: try destruct p; finish.
      - destruct bu as [j|]; destruct B as (O & [C1 C2 C3 C4 C5 C6 C7 C8 C9]); cbn [running may rest failed over] in *; (split; [intros; rewrite O by assumption; reflexivity|]).
        + destruct p; destruct st; constructor; cbn; crush; crush.
          all: try (destruct (ca j) as [| | | |[]]; cbn [woken]; crush; crush).
          all: finish.
        + destruct p; destruct st; constructor; cbn; crush; crush.
          all: finish. }
    destruct p; destruct st; cbn [is negb]; (eexists; split; [reflexivity|]; apply Q; [left + right; split; [reflexivity|]; split; congruence]).
Qed.

Lemma all_good p w r a : rel p w r -> permitted p w r a -> good p r (step w a).
Proof.
  intros R Q. destruct a; cbn [step]; auto using start_good, stop_good, next_good, spurious_good, timeout_good, get_state_good, fini_good, expire_good, proceed_good.
Qed.
Lemma rel_initial p : rel p (initial p) r_initial.
Proof. split; [reflexivity|]. exists 0%nat. split; [reflexivity|]. cbn. split; [reflexivity|]. constructor; cbn; crush. Qed.
Lemma conforms_ok p l : forall w r, rel p w r -> conforms p w r l.
Proof.
  induction l as [|a l IH]; intros w r R; [exact I|]. cbn [conforms]. intros Q. pose proof (all_good p w r a R Q) as G. destruct (step w a) as [w' e| |]; cbn [good] in G; auto.
  destruct G as (r' & O & R'). exists r'. auto.
Qed.
Lemma reachable_rel q p w r : reachable q p w r -> rel p w r.
Proof.
  induction 1 as [|w r a w' e r' R IH K Q S O]; [apply rel_initial|]. pose proof (all_good p w r a IH Q) as G. rewrite S in G. cbn [good] in G. destruct G as (r'' & O' & R'). congruence.
Qed.
