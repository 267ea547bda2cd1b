(** The log, and many threads. *)

From Coq Require Import ZArith List Bool Lia.
From Verif Require Import CUtil CInt NumberModel LogModel LogSpec LogProofs.
Import ListNotations.
Local Open Scope Z_scope.

Definition entry_ok (clean : Prop) (e : nat * list Z * list Z) : Prop := is_prefix (snd e) (snd (fst e)) /\ (clean -> snd e = snd (fst e)).
Definition inv (clean : Prop) (q : nat -> list (list Z)) (s : state) : Prop := exists h,
  output s = written h /\ (forall i, of_thread i h ++ queues s i = q i) /\ (clean -> lost s = 0) /\
  match holder s with
  | None => Forall (entry_ok clean) h
  | Some (i, rest) => exists h' r w mid, h = h' ++ [(i, r, w)] /\ Forall (entry_ok clean) h' /\ r = w ++ mid ++ rest /\ (mid = [] \/ rest = []) /\ (clean -> mid = [])
  end.
Definition good (e : event) : Prop := match e with Turn rc _ => rc > 0 | _ => True end.

Lemma written_app h1 h2 : written (h1 ++ h2) = written h1 ++ written h2.
Proof. unfold written. rewrite map_app, concat_app. reflexivity. Qed.
Lemma of_thread_app i h1 h2 : of_thread i (h1 ++ h2) = of_thread i h1 ++ of_thread i h2.
Proof. unfold of_thread. rewrite filter_app, map_app. reflexivity. Qed.
Lemma of_thread_one i j r w : of_thread i [(j, r, w)] = if Nat.eqb j i then [r] else [].
Proof. unfold of_thread. cbn [filter fst]. destruct (Nat.eqb j i); reflexivity. Qed.

Lemma inv_step clean q s e s' : inv clean q s -> (clean -> good e) -> step s e = Some s' -> inv clean q s'.
Proof.
  intros (h & O & Q & L & H) G S. unfold step in S. destruct e as [i|rc errno|].
  - destruct (holder s) as [[]|] eqn:Hd; [discriminate S|]. destruct (queues s i) as [|r l] eqn:Qi; [discriminate S|]. injection S as <-. exists (h ++ [(i, r, [])]). cbn [output queues lost holder]. split; [rewrite written_app, O; unfold written; cbn [map snd concat app]; rewrite app_nil_r; reflexivity|]. split; [|split; [exact L|]].
    + intros j. rewrite of_thread_app, of_thread_one, <- (Q j), <- app_assoc. f_equal. unfold set_queue. destruct (Nat.eqb_spec i j) as [-> |N].
      * rewrite Nat.eqb_refl. rewrite Qi. reflexivity.
      * destruct (Nat.eqb_spec j i); [congruence|reflexivity].
    + exists h, r, [], []. auto 8.
  - destruct (holder s) as [[i [|x rest]]|] eqn:Hd; [discriminate S| |discriminate S]. destruct H as (h' & r & w & mid & -> & F & E & D & M). destruct D as [-> |D]; [|discriminate D]. cbn [app] in E.
    assert (O2 : output s ++ wrote (x :: rest) rc = written (h' ++ [(i, r, w ++ wrote (x :: rest) rc)])) by (rewrite O, !written_app; unfold written at 2 4; cbn [map snd concat]; rewrite !app_nil_r, app_assoc; reflexivity).
    assert (Q2 : forall j, of_thread j (h' ++ [(i, r, w ++ wrote (x :: rest) rc)]) ++ queues s j = q j) by (intros j; rewrite <- (Q j), !of_thread_app, !of_thread_one; reflexivity).
    destruct (turn_any (x :: rest) rc errno) as (rest' & n & go & T & N & m2 & E2 & D2). rewrite T in S.
    assert (R : r = (w ++ wrote (x :: rest) rc) ++ m2 ++ rest') by (rewrite E; rewrite E2 at 1; rewrite <- !app_assoc; reflexivity).
    assert (C : clean -> n = 0 /\ go = true /\ m2 = []).
    { intros Cl. destruct (turn_ok (x :: rest) rc errno (G Cl)) as (r' & A & B & _). rewrite T in A. injection A as <- <- <-. split; [reflexivity|]. split; [reflexivity|]. rewrite E2 in B at 1. apply app_inv_head in B. apply (app_inv_tail rest' m2 []). exact B. }
    destruct go; injection S as <-; exists (h' ++ [(i, r, w ++ wrote (x :: rest) rc)]); cbn [output queues lost holder]; (split; [exact O2|]); (split; [exact Q2|]).
    + split; [intros Cl; rewrite (L Cl); destruct (C Cl) as [-> _]; reflexivity|]. exists h', r, (w ++ wrote (x :: rest) rc), m2. split; [reflexivity|]. split; [exact F|]. split; [exact R|]. split; [exact D2|]. intros Cl. apply (C Cl).
    + split; [intros Cl; destruct (C Cl) as (_ & X & _); discriminate X|]. apply Forall_app. split; [exact F|]. constructor; [|constructor]. split; [cbn [fst snd]; exists (m2 ++ rest'); exact R|]. intros Cl. destruct (C Cl) as (_ & X & _). discriminate X.
  - destruct (holder s) as [[i [|x rest]]|] eqn:Hd; [|discriminate S|discriminate S]. injection S as <-. destruct H as (h' & r & w & mid & -> & F & E & D & M). rewrite app_nil_r in E.
    exists (h' ++ [(i, r, w)]). cbn [output queues lost holder]. split; [exact O|]. split; [exact Q|]. split; [exact L|]. apply Forall_app. split; [exact F|]. constructor; [|constructor]. split; [cbn [fst snd]; exists mid; exact E|]. cbn [fst snd]. intros Cl. rewrite (M Cl), app_nil_r in E. symmetry. exact E.
Qed.
Lemma inv_run clean q l : forall s s', inv clean q s -> (clean -> Forall good l) -> run s l = Some s' -> inv clean q s'.
Proof.
  induction l as [|e l IH]; intros s s' H G R; [injection R as <-; exact H|]. cbn [run] in R. destruct (step s e) as [s1|] eqn:S; [|discriminate R]. cbn [bind] in R. apply (IH s1 s'); [|intros C; exact (Forall_inv_tail (G C))|exact R]. apply (inv_step clean q s e s1 H); [intros C; exact (Forall_inv (G C))|exact S].
Qed.
Lemma inv_start clean q : inv clean q (start q).
Proof. exists []. cbn. auto. Qed.

Lemma vlogs_cached l : vlogs 65 true l = repeat Syslog (length l).
Proof.
  induction l as [|[[f d] o] l IH]; [reflexivity|]. cbn [length repeat]. rewrite <- IH. reflexivity.
Qed.
Lemma vlogs_sticky l : forall cached i j, nth i (vlogs 65 cached l) Nowhere = Syslog -> (i <= j < length l)%nat -> nth j (vlogs 65 cached l) Nowhere = Syslog.
Proof.
  induction l as [|[[f d] o] l IH]; intros cached i j H L; [cbn [length] in L; lia|]. destruct cached.
  - rewrite vlogs_cached. set (n := length ((f, d, o) :: l)) in *. assert (G : forall n j, (j < n)%nat -> nth j (repeat Syslog n) Nowhere = Syslog) by (induction n0 as [|m IHm]; intros k Hk; [lia|]; destruct k as [|k]; [reflexivity|cbn [repeat nth]; apply IHm; lia]). apply G. lia.
  - destruct i as [|i].
    + destruct j as [|j]; [exact H|]. cbn [length] in L. assert (vlogs 65 false ((f, d, o) :: l) = Syslog :: vlogs 65 true l) as ->.
      { destruct f, d, o; try discriminate H; reflexivity. }
      cbn [nth]. rewrite vlogs_cached. assert (G : forall n j, (j < n)%nat -> nth j (repeat Syslog n) Nowhere = Syslog) by (induction n as [|m IHm]; intros k Hk; [lia|]; destruct k as [|k]; [reflexivity|cbn [repeat nth]; apply IHm; lia]). apply G. lia.
    + destruct j as [|j]; [lia|]. assert (E : exists to c, vlogs 65 false ((f, d, o) :: l) = to :: vlogs 65 c l) by (destruct f, d, o; eexists; eexists; reflexivity). destruct E as (to & c & E). rewrite E in *. cbn [nth] in *. cbn [length] in L. apply (IH c i j H). lia.
Qed.
