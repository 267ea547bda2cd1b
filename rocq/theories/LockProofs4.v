From Coq Require Import ZArith List Bool Lia Arith.
From Verif Require Import CInt CUtil DiskModel LockModel LockSpec LockProofs LockProofs2 LockProofs3.
Import ListNotations.
Local Open Scope Z_scope.

(** * Other files *)

Definition kinv (d : disk) (w : world) : Prop :=
  (forall n, n <> LOCKFILE -> entry d n <> None -> entry (files w) n = entry d n /\ forall t, ~ uses (threads w t) n) /\
  (forall i, i < spare d -> data (files w) i = data d i) /\ spare d <= spare (files w) /\ (forall t i, writes (threads w t) i -> spare d <= i) /\
  ((forall t, threads w t <> Dead /\ threads w t <> Undefined) -> forall n, n <> LOCKFILE -> entry d n = None -> (exists t, uses (threads w t) n) \/ entry (files w) n = None).

(** A step that leaves files alone, and does not let go of a name. *)
Lemma kinv_pc d pid w t a w' : kinv d w -> stepr pid w t a w' -> files w' = files w ->
  (forall n, uses (threads w' t) n -> uses (threads w t) n) -> (forall n, uses (threads w t) n -> uses (threads w' t) n \/ entry (files w) n = None \/ threads w' t = Dead \/ threads w' t = Undefined) ->
  (forall i, writes (threads w' t) i -> writes (threads w t) i) -> threads w t <> Dead -> threads w t <> Undefined -> kinv d w'.
Proof.
  intros (K1 & K2 & K3 & K4 & K5) S F U U2 W ND NU. pose proof (step_other pid w t a w') as SO. unfold kinv. rewrite F. split; [|split; [|split; [|split]]].
  - intros n N0 E. destruct (K1 n N0 E) as (Q1 & Q2). split; [exact Q1|]. intros u. destruct (Nat.eq_dec u t) as [->|N]; [intros UU; apply (Q2 t), U, UU|rewrite (SO u S N); apply Q2].
  - exact K2.
  - exact K3.
  - intros u i. destruct (Nat.eq_dec u t) as [->|N]; [intros WW; apply (K4 t), W, WW|rewrite (SO u S N); apply K4].
  - intros AL n N0 E. destruct (K5) with (n := n) as [(u & UU)|E2]; auto.
    + intros u. destruct (Nat.eq_dec u t) as [->|N]; [auto|rewrite <- (SO u S N); apply AL].
    + destruct (Nat.eq_dec u t) as [->|N]; [|left; exists u; rewrite (SO u S N); exact UU]. destruct (U2 n UU) as [Q|[Q|[Q|Q]]]; [left; eauto|auto|destruct (proj1 (AL t) Q)|destruct (proj2 (AL t) Q)].
Qed.
Lemma alive_before pid w t a w' : stepr pid w t a w' -> threads w t <> Dead /\ threads w t <> Undefined.
Proof. intros S. destruct S; split; congruence. Qed.
Lemma all_alive_before pid w t a w' : stepr pid w t a w' -> (forall u, threads w' u <> Dead /\ threads w' u <> Undefined) -> forall u, threads w u <> Dead /\ threads w u <> Undefined.
Proof. intros S A u. destruct (Nat.eq_dec u t) as [->|N]; [apply (alive_before pid w t a w' S)|rewrite <- (step_other pid w t a w' u S N); apply A]. Qed.

Lemma kinv_step d pid w t a w' : unlocked d -> ninv w -> jinv pid w -> kinv d w -> lucky_act w a -> stepr pid w t a w' -> kinv d w'.
Proof.
  intros (UL & UB) NV JV KV L S. pose proof S as S'. pose proof (alive_before _ _ _ _ _ S) as (ND & NU). pose proof KV as (K1 & K2 & K3 & K4 & K5). pose proof (all_alive_before _ _ _ _ _ S) as AB.
  destruct S.
  - apply (kinv_pc d pid w t _ _ KV S'); rewrite ?goes_same; cbn [uses writes]; try tauto; try reflexivity.
  - apply (kinv_pc d pid w t _ _ KV S'); rewrite ?notes_threads, ?goes_same, ?H; cbn [uses writes]; try tauto; try reflexivity; congruence.
  - (* a new file *)
    cbn [lucky_act] in L. destruct (create_entry _ _ _ _ n H2) as (EN & _). assert (EE := fun m => proj2 (create_entry _ _ _ _ m H2)).
    assert (DD : data d' = (fun j => if j =? spare (files w) then [] else data (files w) j) /\ spare d' = spare (files w) + 1 /\ i = spare (files w)) by (unfold d_create in H2; rewrite EN in H2; injection H2 as <- <-; auto). destruct DD as (DD1 & DD2 & DD3).
    unfold kinv. cbn [files goes]. split; [|split; [|split; [|split]]].
    + intros m M0 E. destruct (K1 m M0 E) as (Q1 & Q2). assert (NM : m <> n) by (intros ->; congruence). split; [rewrite EE, (proj2 (Z.eqb_neq m n) NM); exact Q1|]. intros u. destruct (Nat.eq_dec u t) as [->|N]; [rewrite goes_same; cbn [uses]; congruence|rewrite (goes_other w t _ _ u N); apply Q2].
    + intros j B. rewrite DD1. destruct (Z.eqb_spec j (spare (files w))); [lia|apply K2, B].
    + lia.
    + intros u j. destruct (Nat.eq_dec u t) as [->|N]; [rewrite goes_same; cbn [writes]; lia|rewrite (goes_other w t _ _ u N); apply K4].
    + intros AL m M0 E. destruct (Z.eq_dec m n) as [->|NM]; [left; exists t; rewrite goes_same; reflexivity|]. destruct (K5 (AB AL) m M0 E) as [(u & U)|Q].
      * left. destruct (Nat.eq_dec u t) as [->|N]; [rewrite H in U; destruct U|]. exists u. rewrite (goes_other w t _ _ u N). exact U.
      * right. rewrite EE, (proj2 (Z.eqb_neq m n) NM). exact Q.
  - cbn [lucky_act] in L. destruct L as (L & EN). unfold kinv. cbn [files goes]. split; [|split; [|split; [|split]]].
    + intros m M0 E. destruct (K1 m M0 E) as (Q1 & Q2). assert (NM : m <> n) by (intros ->; congruence). split; [exact Q1|]. intros u. destruct (Nat.eq_dec u t) as [->|N]; [rewrite goes_same; cbn [uses]; congruence|rewrite (goes_other w t _ _ u N); apply Q2].
    + exact K2.
    + exact K3.
    + intros u j. destruct (Nat.eq_dec u t) as [->|N]; [rewrite goes_same; intros []|rewrite (goes_other w t _ _ u N); apply K4].
    + intros AL m M0 E. destruct (K5 (AB AL) m M0 E) as [(u & U)|Q]; [|auto]. left. destruct (Nat.eq_dec u t) as [->|N]; [rewrite H in U; destruct U|]. exists u. rewrite (goes_other w t _ _ u N). exact U.
  - apply (kinv_pc d pid w t _ _ KV S'); rewrite ?goes_same, ?H; cbn [uses writes]; try tauto; try reflexivity; congruence.
  - apply (kinv_pc d pid w t _ _ KV S'); rewrite ?goes_same, ?H; cbn [uses writes]; try tauto; try reflexivity; congruence.
  - (* writing *)
    assert (BI : spare d <= i) by (apply (K4 t); rewrite H; reflexivity). unfold kinv. cbn [files goes]. split; [|split; [|split; [|split]]].
    + intros m M0 E. destruct (K1 m M0 E) as (Q1 & Q2). split; [exact Q1|]. intros u. destruct (Nat.eq_dec u t) as [->|N]; [rewrite goes_same; specialize (Q2 t); rewrite H in Q2; exact Q2|rewrite (goes_other w t _ _ u N); apply Q2].
    + intros j B. cbn [data d_append]. destruct (Z.eqb_spec j i); [lia|apply K2, B].
    + exact K3.
    + intros u j. destruct (Nat.eq_dec u t) as [->|N]; [rewrite goes_same; cbn [writes]; lia|rewrite (goes_other w t _ _ u N); apply K4].
    + intros AL m M0 E. destruct (K5 (AB AL) m M0 E) as [(u & U)|Q]; [|auto]. left. exists u. destruct (Nat.eq_dec u t) as [->|N]; [rewrite goes_same; rewrite H in U; exact U|rewrite (goes_other w t _ _ u N); exact U].
  - apply (kinv_pc d pid w t _ _ KV S'); rewrite ?goes_same, ?H; cbn [uses writes]; try tauto; try reflexivity; congruence.
  - apply (kinv_pc d pid w t _ _ KV S'); rewrite ?goes_same, ?H; cbn [uses writes]; try tauto; try reflexivity; congruence.
  - (* renaming *)
    destruct (NV t n) as (N0 & _); [rewrite H; reflexivity|]. destruct (installs_some _ _ _ _ H0 N0) as (i & E1 & E2 & E3 & E4 & E5 & E6).
    unfold kinv. cbn [files goes]. rewrite E5, E6. split; [|split; [|split; [|split]]].
    + intros m M0 E. destruct (K1 m M0 E) as (Q1 & Q2). assert (NM : m <> n) by (intros ->; apply (Q2 t); rewrite H; reflexivity). split; [rewrite E3 by auto; exact Q1|]. intros u. destruct (Nat.eq_dec u t) as [->|N]; [rewrite goes_same; cbn [uses]; congruence|rewrite (goes_other w t _ _ u N); apply Q2].
    + exact K2.
    + exact K3.
    + intros u j. destruct (Nat.eq_dec u t) as [->|N]; [rewrite goes_same; intros []|rewrite (goes_other w t _ _ u N); apply K4].
    + intros AL m M0 E. destruct (Z.eq_dec m n) as [->|NM]; [left; exists t; rewrite goes_same; reflexivity|]. rewrite (E3 m M0 NM). destruct (K5 (AB AL) m M0 E) as [(u & U)|Q]; [|auto]. left. destruct (Nat.eq_dec u t) as [->|N]; [rewrite H in U; cbn [uses] in U; congruence|]. exists u. rewrite (goes_other w t _ _ u N). exact U.
  - apply (kinv_pc d pid w t _ _ KV S'); rewrite ?goes_same, ?H; cbn [uses writes]; try tauto; try reflexivity; congruence.
  - (* unlinking *)
    destruct (NV t n) as (N0 & _); [rewrite H; reflexivity|]. assert (ED : d' = set_entry (files w) n None) by (unfold d_unlink in H0; destruct (entry (files w) n); [injection H0 as <-; reflexivity|discriminate]). subst d'. unfold kinv. cbn [files goes set_entry entry data spare]. split; [|split; [|split; [|split]]].
    + intros m M0 E. destruct (K1 m M0 E) as (Q1 & Q2). assert (NM : m <> n) by (intros ->; apply (Q2 t); rewrite H; reflexivity). split; [rewrite (proj2 (Z.eqb_neq m n) NM); exact Q1|]. intros u. destruct (Nat.eq_dec u t) as [->|N]; [rewrite goes_same; intros []|rewrite (goes_other w t _ _ u N); apply Q2].
    + exact K2.
    + exact K3.
    + intros u j. destruct (Nat.eq_dec u t) as [->|N]; [rewrite goes_same; intros []|rewrite (goes_other w t _ _ u N); apply K4].
    + intros AL m M0 E. destruct (Z.eqb_spec m n) as [->|NM]; [auto|]. destruct (K5 (AB AL) m M0 E) as [(u & U)|Q]; [|auto]. left. destruct (Nat.eq_dec u t) as [->|N]; [rewrite H in U; cbn [uses] in U; congruence|]. exists u. rewrite (goes_other w t _ _ u N). exact U.
  - apply (kinv_pc d pid w t _ _ KV S'); rewrite ?goes_same, ?H; cbn [uses writes]; try tauto; try reflexivity; try congruence. intros m <-. auto.
  - (* prelock *)
    destruct (create_entry _ _ _ _ LOCKFILE H0) as (EN & _). assert (EE := fun m => proj2 (create_entry _ _ _ _ m H0)).
    assert (DD : data d' = (fun j => if j =? spare (files w) then [] else data (files w) j) /\ spare d' = spare (files w) + 1) by (unfold d_create in H0; rewrite EN in H0; injection H0 as <- <-; auto). destruct DD as (DD1 & DD2).
    unfold kinv. cbn [files goes]. split; [|split; [|split; [|split]]].
    + intros m M0 E. destruct (K1 m M0 E) as (Q1 & Q2). split; [rewrite EE, (proj2 (Z.eqb_neq m LOCKFILE) M0); exact Q1|]. intros u. destruct (Nat.eq_dec u t) as [->|N]; [rewrite goes_same; intros []|rewrite (goes_other w t _ _ u N); apply Q2].
    + intros j B. rewrite DD1. destruct (Z.eqb_spec j (spare (files w))); [lia|apply K2, B].
    + lia.
    + intros u j. destruct (Nat.eq_dec u t) as [->|N]; [rewrite goes_same; intros []|rewrite (goes_other w t _ _ u N); apply K4].
    + intros AL m M0 E. rewrite EE, (proj2 (Z.eqb_neq m LOCKFILE) M0). destruct (K5 (AB AL) m M0 E) as [(u & U)|Q]; [|auto]. left. destruct (Nat.eq_dec u t) as [->|N]; [rewrite H in U; destruct U|]. exists u. rewrite (goes_other w t _ _ u N). exact U.
  - apply (kinv_pc d pid w t _ _ KV S'); rewrite ?goes_same, ?H; cbn [uses writes]; try tauto; try reflexivity; congruence.
  - (* unlock *)
    assert (ED : d' = set_entry (files w) LOCKFILE None) by (unfold d_unlink in H0; destruct (entry (files w) LOCKFILE); [injection H0 as <-; reflexivity|discriminate]). subst d'. unfold kinv. cbn [files goes set_entry entry data spare]. split; [|split; [|split; [|split]]].
    + intros m M0 E. destruct (K1 m M0 E) as (Q1 & Q2). split; [rewrite (proj2 (Z.eqb_neq m LOCKFILE) M0); exact Q1|]. intros u. destruct (Nat.eq_dec u t) as [->|N]; [rewrite goes_same; intros []|rewrite (goes_other w t _ _ u N); apply Q2].
    + exact K2.
    + exact K3.
    + intros u j. destruct (Nat.eq_dec u t) as [->|N]; [rewrite goes_same; intros []|rewrite (goes_other w t _ _ u N); apply K4].
    + intros AL m M0 E. rewrite (proj2 (Z.eqb_neq m LOCKFILE) M0). destruct (K5 (AB AL) m M0 E) as [(u & U)|Q]; [|auto]. left. destruct (Nat.eq_dec u t) as [->|N]; [rewrite H in U; destruct U|]. exists u. rewrite (goes_other w t _ _ u N). exact U.
  - apply (kinv_pc d pid w t _ _ KV S'); rewrite ?goes_same, ?H; cbn [uses writes]; try tauto; try reflexivity; congruence.
  - apply (kinv_pc d pid w t _ _ KV S'); rewrite ?goes_same, ?H; cbn [uses writes]; try tauto; try reflexivity; congruence.
  - apply (kinv_pc d pid w t _ _ KV S'); rewrite ?goes_same, ?H; cbn [uses writes]; try tauto; try reflexivity; congruence.
  - apply (kinv_pc d pid w t _ _ KV S'); rewrite ?notes_threads, ?goes_same, ?H; cbn [uses writes]; try tauto; try reflexivity; congruence.
Qed.

(** * Whose lock it is *)

Definition full_owner (w : world) (t : nat) : Prop :=
  holds_by (history w) t LOCK \/ postlocked (history w) t \/ exists c, (c = LOCK \/ c = POSTLOCK) /\ ((exists n, threads w t = Cleanup c n 0) \/ threads w t = Leaving c 0).
Definition oinv (pid : nat -> Z) (w : world) : Prop :=
  (forall t, in_call (threads w t) = Some POSTLOCK -> holds (history w) t) /\ (forall t, postlocked (history w) t -> holds (history w) t) /\
  (forall t, full_owner w t -> lock_data (files w) = Some (full pid t)) /\
  (forall t, owner w t -> threads w t <> Begin UNLOCK -> lock_data (files w) = Some [] \/ lock_data (files w) = Some (full pid t)).

Lemma postlocked_snoc h t u e : postlocked (h ++ [(u, e)]) t -> postlocked h t /\ (u, e) <> (t, Called UNLOCK) \/ (u, e) = (t, Returned POSTLOCK 0).
Proof.
  intros (h1 & h2 & E & N). apply app_one_inv in E as [(h3 & -> & ->)|(-> & E & ->)]; [|auto].
  left. split; [|intros EQ; apply N; rewrite EQ; apply in_app_iff; right; left; reflexivity]. exists h1, h3. split; [reflexivity|]. intros I. apply N, in_app_iff. auto.
Qed.
Lemma unlocking w t e : hinv w -> in_call (threads w t) = Some UNLOCK -> forall h1 h2, history w = h1 ++ (t, e) :: h2 -> e <> Called UNLOCK -> In (t, Called UNLOCK) h2.
Proof.
  intros HV C h1 h2 E NE. destruct (HV t UNLOCK C) as (h3 & h4 & E2 & Q). rewrite E2 in E. clear -E NE Q. revert h1 E. induction h3 as [|x h3 IH]; intros h1 E; destruct h1 as [|y h1]; cbn [app] in E.
  - injection E as E _. congruence.
  - injection E as _ E. unfold quiet in Q. rewrite E, find_app_ in Q. destruct (find _ h1); [discriminate|]. cbn in Q. rewrite Nat.eqb_refl in Q. discriminate.
  - injection E as _ E. rewrite <- E. apply in_app_iff. right. left. reflexivity.
  - injection E as _ E. exact (IH h1 E).
Qed.
Lemma unlocking_holds w t : hinv w -> in_call (threads w t) = Some UNLOCK -> ~ holds (history w) t.
Proof. intros HV C (c & _ & h1 & h2 & E & N). apply N. apply (unlocking w t (Returned c 0) HV C h1 h2 E). discriminate. Qed.

(** A step either keeps the contents of the lock file, or is one of three. *)
Lemma lock_data_step pid w t a w' : ninv w -> jinv pid w -> stepr pid w t a w' ->
  lock_data (files w') = lock_data (files w) /\ (forall c n, threads w' t <> Cleanup c n 0 \/ threads w t = Cleanup c n 0) /\ (threads w' t <> Leaving PRELOCK 0 \/ threads w t = Leaving PRELOCK 0) /\ (forall c, threads w' t = Leaving c 0 -> makes_temp c = true -> exists n, threads w t = Cleanup c n 0) \/
  (exists c n d', threads w t = Renaming c n /\ installs c (files w) n = Some d' /\ w' = goes w t d' (Cleanup c n 0)) \/
  (exists d' i, threads w t = Begin PRELOCK /\ d_create (files w) LOCKFILE = Some (d', i) /\ w' = goes w t d' (Leaving PRELOCK 0)) \/
  (exists d', threads w t = Begin UNLOCK /\ d_unlink (files w) LOCKFILE = Some d' /\ w' = goes w t d' (Leaving UNLOCK 0)).
Proof.
  intros NV JV S. pose proof JV as (J1 & J2 & J3 & J4 & J5). specialize (J4 t).
  destruct S; try (left; rewrite ?notes_threads, ?goes_same; cbn [files goes notes]; repeat (split; [reflexivity || (intros; left; congruence) || (left; congruence)|]); congruence).
  - left. rewrite goes_same. cbn [files goes]. split; [|repeat split; intros; try (left; congruence); congruence].
    destruct (create_entry _ _ _ _ LOCKFILE H2) as (EN & E). unfold lock_data. rewrite E, (proj2 (Z.eqb_neq LOCKFILE n)) by congruence. destruct (entry (files w) LOCKFILE) as [j|] eqn:E0; [|reflexivity]. cbn [option_map]. f_equal. apply J1 in E0. unfold d_create in H2. destruct (entry (files w) n); [discriminate|]. injection H2 as <- <-. cbn [data]. destruct (Z.eqb_spec j (spare (files w))); [lia|reflexivity].
  - left. rewrite goes_same. cbn [files goes]. split; [|repeat split; intros; try (left; congruence); congruence]. rewrite H in J4. cbn [at_pc] in J4. destruct J4 as ((S1 & S2) & _). destruct (NV t n) as (N0 & _); [rewrite H; reflexivity|].
    unfold lock_data. cbn [entry d_append data]. destruct (entry (files w) LOCKFILE) as [j|] eqn:E0; [|reflexivity]. cbn [option_map]. destruct (Z.eqb_spec j i) as [->|]; [|reflexivity]. destruct N0. symmetry. apply S2, E0.
  - right. left. eauto 8.
  - left. rewrite goes_same. cbn [files goes]. destruct (NV t n) as (N0 & c' & C1 & C2); [rewrite H; reflexivity|]. rewrite H in C1. injection C1 as <-. split; [|repeat split; intros; try (left; congruence); try (destruct c; discriminate || (left; congruence)); try (exists n; congruence)].
    destruct (unlink_entry _ _ _ LOCKFILE H0) as (_ & E). unfold lock_data. rewrite E, (proj2 (Z.eqb_neq LOCKFILE n)) by congruence. unfold d_unlink in H0. destruct (entry (files w) n); [|discriminate]. injection H0 as <-. reflexivity.
  - left. rewrite goes_same. cbn [files goes]. destruct (NV t n) as (N0 & c' & C1 & C2); [rewrite H; reflexivity|]. rewrite H in C1. injection C1 as <-. split; [reflexivity|repeat split; intros; try (left; congruence); try (destruct c; discriminate || (left; congruence)); try (exists n; congruence)].
  - right. right. left. eauto 8.
  - right. right. right. eauto.
  - left. rewrite goes_same. cbn [files goes]. split; [reflexivity|]. split; [intros; left; congruence|]. split; [left; congruence|]. intros c E M. injection E as <- _. discriminate M.
Qed.

Lemma oinv_step pid w t a w' : hinv w -> ninv w -> xinv w -> jinv pid w -> oinv pid w -> well_behaved (history w') -> proper (history w') -> stepr pid w t a w' -> oinv pid w'.
Proof.
  intros HV NV (X1 & X2) JV (O1 & O2 & O3 & O4) (WB1 & WB2) PR S.
  pose proof (step_other pid w t a w') as SO. pose proof (step_history pid w t a w' S) as SH.
  assert (HO : forall u c, u <> t -> holds_by (history w') u c -> holds_by (history w) u c).
  { intros u c N Q. destruct SH as [SH|(e & SH)]; rewrite SH in Q; [exact Q|]. apply holds_snoc in Q as [(Q & _)|(Q & _)]; [exact Q|congruence]. }
  assert (PO : forall u, u <> t -> postlocked (history w') u -> postlocked (history w) u).
  { intros u N Q. destruct SH as [SH|(e & SH)]; rewrite SH in Q; [exact Q|]. apply postlocked_snoc in Q as [(Q & _)|Q]; [exact Q|congruence]. }
  assert (HK : forall u, holds (history w) u -> a = Calls UNLOCK \/ holds (history w') u).
  { intros u (c & Q). destruct S; try (right; exists c; exact Q); [|right; exists c; apply holds_keep; [exact Q|discriminate]].
    destruct (c0) eqn:EC; try (right; exists c; apply holds_keep; [exact Q|discriminate]). left. reflexivity. }
  assert (HU : forall u, u <> t -> holds (history w) u -> holds (history w') u).
  { intros u N (c & Q). exists c. destruct SH as [SH|(e & SH)]; rewrite SH; [exact Q|]. apply holds_keep; [exact Q|congruence]. }
  assert (FO : forall u, u <> t -> full_owner w' u -> full_owner w u).
  { intros u N Q. unfold full_owner in *. rewrite (SO u S N) in Q. destruct Q as [Q|[Q|Q]]; [left; apply HO; assumption|right; left; apply PO; assumption|right; right; exact Q]. }
  assert (OO : forall u, u <> t -> owner w' u -> owner w u) by (intros u N O; apply (owner_other w w' t u N (SO u S N) SH O)).
  assert (FOO : forall u, full_owner w u -> holds (history w) u \/ (exists n, threads w u = Cleanup LOCK n 0) \/ threads w u = Leaving LOCK 0).
  { intros u [Q|[Q|(c & [->| ->] & Q)]]; [left; exists LOCK; exact Q|left; apply O2, Q|right; exact Q|left; apply O1; destruct Q as [(n & ->)| -> ]; reflexivity]. }
  assert (FOW : forall u, full_owner w u -> owner w u) by (intros u Q; apply FOO in Q; unfold owner; tauto).
  (* the first two parts, for all steps *)
  assert (P1 : forall u, in_call (threads w' u) = Some POSTLOCK -> holds (history w') u).
  { intros u C. destruct (Nat.eq_dec u t) as [->|N]; [|apply HU; [exact N|]; apply O1; rewrite <- (SO u S N); exact C].
    destruct (step_call pid w t a w' POSTLOCK S C) as [(C0 & E)|(-> & E)].
    - rewrite E. apply O1, C0.
    - destruct (HK t) as [Q|Q]; [apply (PR (history w) [] t); exact E|discriminate|exact Q]. }
  assert (P2 : forall u, postlocked (history w') u -> holds (history w') u).
  { intros u Q. destruct (Nat.eq_dec u t) as [->|N]; [|apply HU; [exact N|]; apply O2, PO; assumption].
    destruct SH as [SH|(e & SH)]; [rewrite SH in *; apply O2, Q|]. rewrite SH in Q. apply postlocked_snoc in Q as [(Q & NE)|Q].
    - destruct (O2 t Q) as (c & K). exists c. rewrite SH. apply holds_keep; assumption.
    - injection Q as ->. assert (C : in_call (threads w t) = Some POSTLOCK).
      { destruct S; cbn in SH; try (apply (f_equal (@length _)) in SH; rewrite app_length in SH; cbn in SH; lia); [apply app_inj_tail in SH as (_ & SH); discriminate|]. apply app_inj_tail in SH as (_ & SH). rewrite H. injection SH as -> _. reflexivity. }
      destruct (O1 t C) as (c & K). exists c. rewrite SH. apply holds_keep; [exact K|discriminate]. }
  split; [exact P1|]. split; [exact P2|].
  destruct (lock_data_step pid w t a w' NV JV S) as [(LD & L1 & L2 & L3)|[(c & n & d' & T & I & ->)|[(d' & i & T & D & ->)|(d' & T & D & ->)]]].
  - (* unchanged *)
    rewrite LD.
    assert (FT : full_owner w' t -> full_owner w t).
    { intros Q. unfold full_owner in *. destruct Q as [Q|[Q|(c & K & Q)]].
      - destruct SH as [SH|(e & SH)]; [rewrite SH in Q; auto|]. rewrite SH in Q. apply holds_snoc in Q as [(Q & _)|(Q & _)]; [auto|]. injection Q as ->. right. right. exists LOCK. split; [auto|]. right.
        destruct S; cbn in SH; try (apply (f_equal (@length _)) in SH; rewrite app_length in SH; cbn in SH; lia); apply app_inj_tail in SH as (_ & SH); [discriminate|congruence].
      - destruct SH as [SH|(e & SH)]; [rewrite SH in Q; auto|]. rewrite SH in Q. apply postlocked_snoc in Q as [(Q & _)|Q]; [auto|]. injection Q as ->. right. right. exists POSTLOCK. split; [auto|]. right.
        destruct S; cbn in SH; try (apply (f_equal (@length _)) in SH; rewrite app_length in SH; cbn in SH; lia); apply app_inj_tail in SH as (_ & SH); [discriminate|congruence].
      - right. right. exists c. split; [exact K|]. left. destruct Q as [(n & Q)|Q]; [destruct (L1 c n) as [E|E]; [congruence|eauto]|]. apply (L3 c Q). destruct K as [->| ->]; reflexivity. }
    split.
    + intros u Q. destruct (Nat.eq_dec u t) as [->|N]; [apply O3, FT, Q|apply O3, FO; assumption].
    + intros u Q NB. destruct (Nat.eq_dec u t) as [->|N]; [|apply O4; [apply OO; assumption|rewrite <- (SO u S N); exact NB]].
      destruct Q as [(c & Q)|[(n & Q)|[Q|[Q|Q]]]]; [|destruct (L1 LOCK n) as [E|E]; [congruence|apply O4; [unfold owner; eauto|congruence]]|destruct (L3 LOCK Q eq_refl) as (n & E); apply O4; [unfold owner; eauto|congruence]|destruct L2 as [E|E]; [congruence|apply O4; [unfold owner; auto|congruence]]|contradiction].
      assert (NB0 : threads w t <> Begin UNLOCK \/ ~ holds_by (history w) t c) by (destruct (threads w t) eqn:TT; try (left; congruence); destruct c0; try (left; congruence); right; intros Q2; apply (unlocking_holds w t HV); [rewrite TT; reflexivity|exists c; exact Q2]).
      destruct SH as [SH|(e & SH)]; rewrite SH in Q.
      * apply O4; [left; exists c; exact Q|]. destruct NB0 as [NB0|NB0]; [exact NB0|contradiction].
      * apply holds_snoc in Q as [(Q & _)|(Q & K)]; [apply O4; [left; exists c; exact Q|destruct NB0 as [NB0|NB0]; [exact NB0|contradiction]]|]. injection Q as ->.
        assert (TL : threads w t = Leaving c 0) by (destruct S; cbn in SH; try (apply (f_equal (@length _)) in SH; rewrite app_length in SH; cbn in SH; lia); apply app_inj_tail in SH as (_ & SH); [discriminate|congruence]).
        apply O4; [unfold owner; destruct K as [->| ->]; auto|congruence].
  - (* renamed *)
    destruct (NV t n) as (N0 & _); [rewrite T; reflexivity|]. destruct (installs_some _ _ _ _ I N0) as (i & E1 & E2 & _ & E4 & E5 & _).
    assert (LD : lock_data d' = Some (full pid t)).
    { pose proof (proj1 (proj2 (proj2 (proj2 JV))) t) as JT. rewrite T in JT. destruct JT as (i' & (S1 & _) & JT). unfold lock_data. rewrite E2, E5. cbn. congruence. }
    assert (ALONE : forall u, u <> t -> owner w u -> False).
    { intros u N Q. destruct c; try discriminate I.
      - destruct E4 as [(_ & E4)|(E4 & _)]; [|congruence]. apply (X2 u Q), E4. reflexivity.
      - apply N, X1; [exact Q|]. left. apply O1. rewrite T. reflexivity.
      - apply (WB2 t). cbn. apply (hinv_called w t FILE HV). rewrite T. reflexivity. }
    cbn [files goes]. rewrite LD. split.
    + intros u Q. destruct (Nat.eq_dec u t) as [->|N]; [reflexivity|destruct (ALONE u N); apply FOW, FO; assumption].
    + intros u Q NB. destruct (Nat.eq_dec u t) as [->|N]; [auto|destruct (ALONE u N); apply OO; assumption].
  - (* prelocked *)
    destruct (create_entry _ _ _ _ LOCKFILE D) as (E0 & E). assert (NO : forall u, ~ owner w u) by (intros u Q; apply (X2 u Q), E0).
    assert (LD : lock_data d' = Some []) by (unfold lock_data; rewrite E, Z.eqb_refl; cbn; f_equal; unfold d_create in D; rewrite E0 in D; injection D as <- <-; cbn [data]; rewrite Z.eqb_refl; reflexivity).
    cbn [files goes]. rewrite LD. split.
    + intros u Q. exfalso. destruct (Nat.eq_dec u t) as [->|N]; [|apply (NO u), FOW, FO; assumption]. unfold full_owner in Q. rewrite goes_same in Q. cbn [history goes] in Q. apply (NO t), FOW. unfold full_owner. destruct Q as [Q|[Q|(c & K & [(n & Q)|Q])]]; auto; [discriminate|]. injection Q as <-. destruct K; discriminate.
    + auto.
  - (* unlocked *)
    assert (NO : forall u, u <> t -> ~ owner w u) by (intros u N Q; apply N, X1; [exact Q|unfold owner; auto]).
    assert (NH : ~ holds (history w) t) by (apply unlocking_holds; [exact HV|rewrite T; reflexivity]).
    split.
    + intros u Q. exfalso. destruct (Nat.eq_dec u t) as [->|N]; [|apply (NO u N), FOW, FO; assumption]. unfold full_owner in Q. rewrite goes_same in Q. cbn [history goes] in Q. destruct Q as [Q|[Q|(c & K & [(n & Q)|Q])]]; [apply NH; exists LOCK; exact Q|apply NH, O2, Q|discriminate|]. injection Q as <-. destruct K; discriminate.
    + intros u Q NB. exfalso. destruct (Nat.eq_dec u t) as [->|N]; [|apply (NO u N), OO; assumption]. unfold owner in Q. rewrite goes_same in Q. cbn [history goes] in Q. destruct Q as [Q|[(n & Q)|[Q|[Q|Q]]]]; [exact (NH Q)|discriminate..].
Qed.

(** * Runs *)

Lemma jinv_start pid d : unlocked d -> jinv pid (start d).
Proof.
  intros (U1 & U2). split; [exact U2|]. split; [intros t u n []|]. split; [intros i E; cbn [files start] in E; congruence|]. split; [intros t; exact I|intros t rc []].
Qed.
Lemma kinv_start d : kinv d (start d).
Proof.
  split; [intros n _ _; split; [reflexivity|intros t []]|]. split; [reflexivity|]. split; [cbn; lia|]. split; [intros t i []|]. intros _ n _ E. right. exact E.
Qed.
Lemma oinv_start pid d : oinv pid (start d).
Proof.
  repeat split; cbn; try discriminate.
  - intros t (h1 & h2 & E & _). destruct h1; discriminate.
  - intros t [(_ & h1 & h2 & E & _)|[(h1 & h2 & E & _)|(c & K & [(n & Q)|Q])]]; try discriminate; destruct h1; discriminate.
  - intros t [(c & _ & h1 & h2 & E & _)|[(n & Q)|[Q|[Q|Q]]]]; try discriminate. destruct h1; discriminate.
Qed.
Lemma run_inv d pid : (forall u, 0 < pid u < 2147483648) -> unlocked d -> forall tr w w', hinv w -> ninv w -> jinv pid w -> kinv d w -> lucky pid w tr -> run pid w tr = Some w' -> hinv w' /\ ninv w' /\ jinv pid w' /\ kinv d w'.
Proof.
  intros PID UL. induction tr as [|(t, a) tr IH]; intros w w' HV NV JV KV L E; cbn [run] in E; [injection E as <-; auto|]. cbn [lucky] in L. destruct L as (L & LL).
  destruct (step pid w t a) as [w1|] eqn:S; [|discriminate]. cbn [bind] in E. apply step_stepr in S.
  apply (IH w1 w'); [eapply hinv_step; eassumption|eapply ninv_step; eassumption|eapply jinv_step; eassumption|eapply kinv_step; eassumption|exact LL|exact E].
Qed.
Lemma proper_prefix h more : proper (h ++ more) -> proper h.
Proof. intros P h1 h2 t E. apply (P h1 (h2 ++ more) t). rewrite E, <- app_assoc. reflexivity. Qed.
Lemma run_oinv pid : (forall u, 0 < pid u < 2147483648) -> forall tr w w', hinv w -> ninv w -> xinv w -> jinv pid w -> oinv pid w -> well_behaved (history w') -> proper (history w') -> lucky pid w tr -> run pid w tr = Some w' -> oinv pid w'.
Proof.
  intros PID. induction tr as [|(t, a) tr IH]; intros w w' HV NV XV JV OV WB PR L E; cbn [run] in E; [injection E as <-; auto|]. cbn [lucky] in L. destruct L as (L & LL).
  destruct (step pid w t a) as [w1|] eqn:S; [|discriminate]. cbn [bind] in E. apply step_stepr in S. destruct (run_history pid tr w1 w' E) as (more & H).
  assert (WB1 : well_behaved (history w1)) by (apply (well_behaved_prefix _ more); rewrite <- H; exact WB). assert (PR1 : proper (history w1)) by (apply (proper_prefix _ more); rewrite <- H; exact PR).
  apply (IH w1 w'); [eapply hinv_step; eassumption|eapply ninv_step; eassumption|eapply xinv_step; eassumption|eapply jinv_step; eassumption|eapply oinv_step; eassumption|exact WB|exact PR|exact LL|exact E].
Qed.

(** * Luck, computed *)

Definition usesb (p : pc) (n : Z) : bool := match p with Opened _ m _ | Flushing _ m _ _ | Renaming _ m | Cleanup _ m _ => m =? n | _ => false end.
Definition lucky_actb (k : nat) (w : world) (a : act) : bool :=
  match a with
  | MakesTemp n => forallb (fun u => negb (usesb (threads w u) n)) (seq 0 k)
  | NoTemp n => forallb (fun u => negb (usesb (threads w u) n)) (seq 0 k) && match entry (files w) n with None => true | _ => false end
  | _ => true
  end.
Fixpoint luckyb (k : nat) (pid : nat -> Z) (w : world) (tr : list (nat * act)) : bool :=
  match tr with
  | [] => true
  | (t, a) :: tr => (t <? k)%nat && lucky_actb k w a && match step pid w t a with Some w => luckyb k pid w tr | None => true end
  end.
Lemma luckyb_lucky k pid : forall tr w, (forall u, (k <= u)%nat -> threads w u = Idle) -> luckyb k pid w tr = true -> lucky pid w tr.
Proof.
  induction tr as [|(t, a) tr IH]; intros w A L; cbn [lucky]; [exact I|]. cbn [luckyb] in L. apply andb_true_iff in L as (L & L3). apply andb_true_iff in L as (L1 & L2). apply Nat.ltb_lt in L1.
  assert (U : forall n, forallb (fun u => negb (usesb (threads w u) n)) (seq 0 k) = true -> forall u, ~ uses (threads w u) n).
  { intros n F u UU. destruct (Nat.le_gt_cases k u) as [G|G]; [rewrite (A u G) in UU; exact UU|]. rewrite forallb_forall in F. specialize (F u). rewrite in_seq in F. specialize (F ltac:(lia)). destruct (threads w u); cbn [uses usesb] in *; try contradiction; subst; rewrite Z.eqb_refl in F; discriminate. }
  split.
  - destruct a; try exact I; cbn [lucky_act lucky_actb] in *; [apply U, L2|]. apply andb_true_iff in L2 as (L2 & L4). split; [apply U, L2|]. destruct (entry (files w) n); [discriminate|reflexivity].
  - destruct (step pid w t a) as [w'|] eqn:S; [|exact I]. apply IH; [|exact L3]. intros u G. rewrite (step_other pid w t a w' u (step_stepr _ _ _ _ _ S)) by lia. apply A, G.
Qed.
Lemma split_at {A} (h h1 h2 : list A) x : h = h1 ++ x :: h2 -> nth_error h (length h1) = Some x /\ h1 = firstn (length h1) h.
Proof. intros ->. split; [rewrite nth_error_app2, Nat.sub_diag by lia; reflexivity|]. rewrite firstn_app, firstn_all, Nat.sub_diag. cbn. rewrite app_nil_r. reflexivity. Qed.
