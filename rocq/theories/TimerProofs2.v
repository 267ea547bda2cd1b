(** A stop that waits can end. *)

From Coq Require Import ZArith List Bool Arith Lia.
From Verif Require Import CUtil CInt TimerModel TimerSpec TimerProofs.
Import ListNotations.
Local Open Scope Z_scope.

Record live (p : bool) (w : world) (r : ref) : Prop := {
  l_arm : state w <> IDLE -> failed r = true \/ armed w = true \/ (exists i, callers w i = Setting true) \/ (p = false /\ exists t, threads w t <> Nobody);
  l_set : forall i, callers w i <> Setting false;
  l_wait : forall i, callers w i = Asleep \/ callers w i = Awake -> failed r = false }.

Lemma step_live p w r a w' e r' : rel p w r -> live p w r -> positive a -> permitted p w r a -> step w a = Does w' e -> observe p r e = Some r' -> live p w' r'.
Proof.
  intros R [L1 L2 L3] K Q S O. destruct w as [st cx pe arm del th ca]. pose proof R as (P & t & Ot & B). cbn [periodic] in P. subst pe.
  cbn [state armed callers threads] in *. destruct a; cbn [step positive permitted] in *.
  - unfold start in S. cbn [deleted callers periodic armed threads] in S. destruct del; [discriminate|]. destruct (ca i); try discriminate. injection S as <- <-. injection O as <-.
    destruct (Z.ltb_spec 0 ticks); [|lia]. constructor; cbn.
    + intros _. right. right. left. exists i. now rewrite Nat.eqb_refl.
    + intros j. destruct (Nat.eqb j i); [discriminate|apply L2].
    + reflexivity.
  - unfold stop in S. cbn [deleted callers state] in S. destruct del; [discriminate|]. destruct (ca i) eqn:E; try discriminate. destruct Q as (_ & F & _).
    destruct (is st ARM) eqn:I; injection S as <- <-; injection O as <-; constructor; cbn.
    + intros _. destruct L1 as [H|[H|[(j & H)|H]]]; [destruct st; discriminate|auto|auto| |auto]. right. right. left. exists j. destruct (Nat.eqb_spec j i); [congruence|assumption].
    + intros j. destruct (Nat.eqb j i); [discriminate|apply L2].
    + auto.
    + intros N. destruct (L1 N) as [H|[H|[(j & H)|H]]]; auto. right. right. left. exists j. destruct (Nat.eqb_spec j i); [congruence|assumption].
    + intros j. destruct (Nat.eqb j i); [discriminate|apply L2].
    + auto.
  - unfold next in S. cbn [callers deleted state] in S. destruct (ca i) as [|po| | |ok] eqn:E; try discriminate; (destruct del; [discriminate|]); injection S as <- <-.
    + assert (po = true) as -> by (destruct po; [reflexivity|exfalso; exact (L2 i E)]). cbn [observe] in O. destruct (busy r) as [j|] eqn:Bu; [|discriminate]. destruct (Nat.eqb i j); [|discriminate]. injection O as <-. constructor; cbn.
      * auto.
      * intros k. destruct (Nat.eqb k i); [discriminate|apply L2].
      * intros k. destruct (Nat.eqb k i); [intros [|]; discriminate|apply L3].
    + injection O as <-. constructor; cbn.
      * intros N. destruct (L1 N) as [H|[H|[(j & H)|H]]]; auto. right. right. left. exists j. destruct (Nat.eqb_spec j i); [congruence|assumption].
      * intros k. destruct (Nat.eqb k i); [destruct (is st IDLE); discriminate|apply L2].
      * intros k. destruct (Nat.eqb_spec k i) as [-> |]; [intros _; apply (L3 i); auto|apply L3].
    + cbn [observe] in O. destruct (busy r) as [j|] eqn:Bu; [|discriminate]. destruct (Nat.eqb_spec i j) as [<- |]; [|discriminate]. cbn [negb] in O. destruct B as (Oth & C). cbn [callers state context armed deleted threads] in *. rewrite E in C. destruct ok.
      * pose proof (c_pl _ _ _ _ _ _ _ _ C) as ->. destruct (running r); [discriminate|]. injection O as <-. constructor; cbn.
        -- congruence.
        -- intros k. destruct (Nat.eqb k i); [discriminate|apply L2].
        -- reflexivity.
      * injection O as <-. constructor; cbn; [auto| |].
        -- intros k. destruct (Nat.eqb k i); [discriminate|apply L2].
        -- intros k. destruct (Nat.eqb_spec k i); [intros [|]; discriminate|]. rewrite Oth by assumption. intros [|]; discriminate.
  - unfold spurious in S. cbn [callers] in S. destruct (ca i) eqn:E; try discriminate. injection S as <- <-. injection O as <-. constructor; cbn.
    + intros N. destruct (L1 N) as [H|[H|[(j & H)|H]]]; auto. right. right. left. exists j. destruct (Nat.eqb_spec j i); [congruence|assumption].
    + intros k. destruct (Nat.eqb k i); [discriminate|apply L2].
    + intros k. destruct (Nat.eqb_spec k i) as [-> |]; [intros _; apply (L3 i); auto|apply L3].
  - assert (X : exists pl, (ca i = Asleep \/ ca i = Awake) /\ pl = Ending false /\ w' = go (World st cx p arm del th ca) i pl /\ e = Silent).
    { unfold timeout in S. cbn [callers] in S. destruct (ca i); try discriminate; injection S as <- <-; eauto 10. }
    destruct X as (pl & E & -> & -> & ->). injection O as <-. constructor; cbn.
    + intros N. destruct (L1 N) as [H|[H|[(j & H)|H]]]; auto. right. right. left. exists j. destruct (Nat.eqb_spec j i); [subst; destruct E; congruence|assumption].
    + intros k. destruct (Nat.eqb k i); [discriminate|apply L2].
    + intros k. destruct (Nat.eqb_spec k i) as [-> |]; [intros _; apply (L3 i); auto|apply L3].
  - unfold get_state in S. cbn [deleted state] in S. destruct del; [discriminate|]. injection S as <- <-. cbn [observe] in O. destruct st.
    + destruct (running r); [discriminate|]. injection O as <-. constructor; cbn; [congruence|exact L2|reflexivity].
    + destruct (rest r || failed r); [discriminate|]. injection O as <-. constructor; auto.
    + assert (r' = r) as -> by (destruct (busy r); [destruct (rest r)|destruct (failed r && negb (rest r))]; congruence). constructor; auto.
  - unfold fini in S. cbn [deleted] in S. destruct del; [discriminate|]. injection S as <- <-. injection O as <-. destruct Q as (Bu & Re & Ov & ->). rewrite Bu in B. destruct B as (Oth & C). cbn [callers state context armed deleted threads] in *.
    destruct (c_rest _ _ _ _ _ _ _ _ C Re) as (-> & _). constructor; cbn; [congruence|exact L2|exact L3].
  - unfold expire in S. cbn [threads armed] in S. destruct (th t0) eqn:E; try discriminate. destruct arm; [|discriminate]. injection S as <- <-. injection O as <-. constructor; cbn; [|exact L2|exact L3].
    intros _. destruct p; [auto|]. right. right. right. split; [reflexivity|]. exists t0. rewrite Nat.eqb_refl. discriminate.
  - assert (X : exists st' (sg : bool) ph, w' = (if sg then signal else fun w => w) (move (World st' cx p arm del th ca) t0 ph) /\ failed r' = failed r /\ th t0 <> Nobody /\ (st' = IDLE \/ (st' = st /\ (ph = Nobody -> p = true \/ st = IDLE)))).
    { unfold proceed in S. cbn [threads deleted state context periodic] in S. destruct (th t0) as [| |[d|]|d|] eqn:E; try discriminate.
      - destruct del; [discriminate|]. injection S as <- <-. injection O as <-. exists st, false, (Holding (if is st ARM then Some cx else None)). split; [reflexivity|]. split; [reflexivity|]. split; [discriminate|]. right. split; [reflexivity|discriminate].
      - injection S as <- <-. exists st, false, (Inside d). split; [reflexivity|]. split; [cbn [observe] in O; destruct (may r); [|discriminate]; destruct (_ && _); [injection O as <-; reflexivity|discriminate]|]. split; [discriminate|]. right. split; [reflexivity|discriminate].
      - injection S as <- <-. injection O as <-. exists st, false, After. split; [reflexivity|]. split; [reflexivity|]. split; [discriminate|]. right. split; [reflexivity|discriminate].
      - injection S as <- <-. exists st, false, After. split; [reflexivity|]. split; [cbn [observe] in O; destruct (running r); [injection O as <-; reflexivity|discriminate]|]. split; [discriminate|]. right. split; [reflexivity|discriminate].
      - destruct del; [discriminate|]. destruct p.
        + destruct (is st DISARM); injection S as <- <-; injection O as <-.
          * exists IDLE, true, Nobody. split; [reflexivity|]. split; [reflexivity|]. split; [discriminate|]. auto.
          * exists st, false, Nobody. split; [reflexivity|]. split; [reflexivity|]. split; [discriminate|]. auto.
        + destruct (negb (is st IDLE)) eqn:I; injection S as <- <-; injection O as <-.
          * exists IDLE, true, Nobody. split; [reflexivity|]. split; [reflexivity|]. split; [discriminate|]. auto.
          * exists st, false, Nobody. split; [reflexivity|]. split; [reflexivity|]. split; [discriminate|]. right. split; [reflexivity|]. right. destruct st; try discriminate; reflexivity. }
    clear S O. destruct X as (st' & sg & ph & -> & F & E & X). assert (W : forall k, callers ((if sg then signal else fun w => w) (move (World st' cx p arm del th ca) t0 ph)) k = if sg then woken (ca k) else ca k) by (destruct sg; reflexivity).
    assert (St : state ((if sg then signal else fun w => w) (move (World st' cx p arm del th ca) t0 ph)) = st') by (destruct sg; reflexivity).
    constructor.
    + rewrite St, F. intros N. destruct X as [X|(-> & X)]; [contradiction|]. destruct (L1 N) as [H|[H|[(j & H)|H]]]; auto.
      * right. left. destruct sg; exact H.
      * right. right. left. exists j. rewrite W, H. destruct sg; reflexivity.
      * destruct H as (-> & u & H). right. right. right. split; [reflexivity|]. exists (if Nat.eqb u t0 then t0 else u).
        assert (T : forall k, threads ((if sg then signal else fun w => w) (move (World st cx false arm del th ca) t0 ph)) k = if Nat.eqb k t0 then ph else th k) by (destruct sg; reflexivity).
        rewrite T. destruct (Nat.eqb_spec u t0) as [-> |Nu].
        -- rewrite Nat.eqb_refl. intros ->. destruct X; [reflexivity|discriminate|contradiction].
        -- destruct (Nat.eqb_spec u t0); [contradiction|exact H].
    + intros k. rewrite W. specialize (L2 k). destruct sg; [|exact L2]. destruct (ca k); cbn [woken]; congruence.
    + intros k. rewrite W, F. intros H. apply (L3 k). destruct sg; [|exact H]. destruct (ca k); cbn [woken] in H; auto.
Qed.
Lemma reachable_live p w r : reachable positive p w r -> live p w r.
Proof.
  induction 1 as [|w r a w' e r' R IH K Q S O].
  - constructor; cbn; [congruence|discriminate|reflexivity].
  - eapply step_live; eauto using reachable_rel.
Qed.

Lemma run_app l1 : forall l2 w w1 w2 e1 e2, run w l1 = Some (w1, e1) -> run w1 l2 = Some (w2, e2) -> run w (l1 ++ l2) = Some (w2, e1 ++ e2).
Proof.
  induction l1 as [|a l1 IH]; intros l2 w w1 w2 e1 e2 H1 H2.
  - injection H1 as <- <-. exact H2.
  - cbn [run app] in *. destruct (step w a) as [w' e| |]; try discriminate. unfold bind in *. destruct (run w' l1) as [[w'' es]|] eqn:E; [|discriminate]. injection H1 as <- <-. rewrite (IH l2 w' w'' w2 es e2 E H2). reflexivity.
Qed.

(** The world when a caller waits, as its threads go on. *)
Definition ended (i : nat) (w : world) : Prop := exists l w' es, Forall (waits i) l /\ run w l = Some (w', es ++ [StopReturns i true]).
Lemma ended_cons i w a w' e : waits i a -> step w a = Does w' e -> ended i w' -> ended i w.
Proof. intros Wa S (l & w'' & es & F & H). exists (a :: l), w'', (e :: es). split; [constructor; assumption|]. cbn [run]. rewrite S. unfold bind. rewrite H. reflexivity. Qed.

Lemma ended_after i t w : deleted w = false -> state w = DISARM -> callers w i = Asleep -> threads w t = After -> ended i w.
Proof.
  intros D S C T. destruct w as [st cx p arm del th ca]. cbn [deleted state callers threads] in *. subst.
  eapply (ended_cons i _ (Proceed t)); [exact I| |].
  { cbn [step]. unfold proceed. cbn [threads deleted state periodic]. rewrite T. destruct p; reflexivity. }
  exists [Step i; Step i]. eexists. eexists [Silent]. split; [repeat constructor|]. cbn [run step]. unfold next at 1. cbn [callers signal move set_state deleted state]. rewrite C. cbn [woken is].
  unfold bind, next. cbn [go callers]. rewrite Nat.eqb_refl. reflexivity.
Qed.
Lemma ended_holding i t w ph e w' : deleted w = false -> state w = DISARM -> callers w i = Asleep -> threads w t = ph -> step w (Proceed t) = Does w' e -> w' = move w t After -> ended i w.
Proof.
  intros D S C T P ->. eapply (ended_cons i _ (Proceed t)); [exact I|exact P|]. apply ended_after with t; try assumption. cbn [move threads]. apply Nat.eqb_refl || now rewrite Nat.eqb_refl.
Qed.
Lemma ended_inside i t w : deleted w = false -> state w = DISARM -> callers w i = Asleep -> (exists c, threads w t = Inside c) \/ threads w t = Holding None -> ended i w.
Proof.
  intros D S C [(c & T)|T]; (eapply ended_holding; [exact D|exact S|exact C|exact T| |reflexivity]); cbn [step]; unfold proceed; rewrite T; reflexivity.
Qed.
Lemma ended_held i t w c : deleted w = false -> state w = DISARM -> callers w i = Asleep -> threads w t = Holding c -> ended i w.
Proof.
  intros D S C T. destruct c as [c|]; [|eauto using ended_inside]. eapply (ended_cons i _ (Proceed t)); [exact I|cbn [step]; unfold proceed; rewrite T; reflexivity|].
  apply ended_inside with t; try assumption. left. exists c. cbn [move threads]. now rewrite Nat.eqb_refl.
Qed.
Lemma ended_new i t w : deleted w = false -> state w = DISARM -> callers w i = Asleep -> threads w t = New -> ended i w.
Proof.
  intros D S C T. eapply (ended_cons i _ (Proceed t)); [exact I|cbn [step]; unfold proceed; rewrite T, D; reflexivity|].
  eapply ended_held with (t := t); try assumption. cbn [move threads]. rewrite Nat.eqb_refl. reflexivity.
Qed.
Lemma ended_thread i t w : deleted w = false -> state w = DISARM -> callers w i = Asleep -> threads w t <> Nobody -> ended i w.
Proof.
  intros D S C T. destruct (threads w t) eqn:E; [contradiction|..]; eauto using ended_new, ended_held, ended_inside, ended_after.
Qed.
Lemma stop_ends p w r i : reachable positive p w r -> callers w i = Asleep -> ended i w.
Proof.
  intros R C. pose proof (reachable_live p w r R) as [L1 L2 L3]. pose proof (reachable_rel _ p w r R) as (P & t & Ot & B).
  destruct (busy r) as [j|] eqn:Bu; [|destruct B as (B & _); rewrite B in C; discriminate]. destruct B as (B & K).
  destruct (Nat.eq_dec i j) as [<- |N]; [|rewrite B in C by assumption; discriminate]. rewrite C in K.
  pose proof (c_pl _ _ _ _ _ _ _ _ K) as S. cbn in S. assert (D : deleted w = false).
  { rewrite (c_del _ _ _ _ _ _ _ _ K). destruct (over r) eqn:O; [|reflexivity]. destruct (c_over _ _ _ _ _ _ _ _ K O) as (_ & _ & _ & X). discriminate X. }
  destruct (threads w t) eqn:T; try (apply ended_thread with t; congruence).
  assert (armed w = true) as A.
  { destruct L1 as [H|[H|[(k & H)|(_ & u & H)]]]; [congruence| |assumption| |].
    - rewrite (L3 i) in H by auto. discriminate.
    - destruct (Nat.eq_dec k i) as [-> |]; [congruence|]. rewrite B in H by assumption. discriminate.
    - destruct (Nat.eq_dec u t) as [-> |]; [contradiction|]. rewrite Ot in H by assumption. contradiction. }
  eapply (ended_cons i _ (Expire t)); [exact I|cbn [step]; unfold expire; rewrite T, A; reflexivity|].
  eapply ended_new with (t := t); try assumption. cbn [move threads]. now rewrite Nat.eqb_refl.
Qed.

(** A stop from inside of the function. *)
Definition stuck (i t : nat) (w : world) : Prop :=
  deleted w = false /\ periodic w = false /\ armed w = false /\ (exists c, threads w t = Inside c) /\ (forall u, u <> t -> threads w u = Nobody) /\
  state w = DISARM /\ callers w i <> Ending true /\ (forall b, callers w i <> Setting b).
Lemma stuck_step i t w a w' e : stuck i t w -> within i t a -> step w a = Does w' e -> stuck i t w' /\ e <> StopReturns i true.
Proof.
  intros (D & P & A & (c & T) & U & S & C & C2) Q E. destruct a; cbn [within step] in *; try contradiction; try subst i0.
  - unfold next in E. destruct (callers w i) as [|po| | |ok] eqn:K; try discriminate.
    + exfalso. exact (C2 po eq_refl).
    + rewrite D, S in E. cbn [is] in E. injection E as <- <-. split; [|discriminate]. unfold stuck. cbn [go deleted periodic armed threads state callers]. rewrite Nat.eqb_refl. repeat (split; [solve [eauto | discriminate]|]); intros; discriminate.
    + destruct ok; [exfalso; apply C; reflexivity|]. rewrite D in E. injection E as <- <-. split; [|discriminate]. unfold stuck. cbn [go set_armed deleted periodic armed threads state callers]. rewrite Nat.eqb_refl. repeat (split; [solve [eauto | discriminate]|]); intros; discriminate.
  - unfold spurious in E. destruct (callers w i) eqn:K; try discriminate. injection E as <- <-. split; [|discriminate]. unfold stuck. cbn [go deleted periodic armed threads state callers]. rewrite Nat.eqb_refl. repeat (split; [solve [eauto | discriminate]|]); intros; discriminate.
  - unfold timeout in E. destruct (callers w i) eqn:K; try discriminate; injection E as <- <-; (split; [|discriminate]; unfold stuck; cbn [go deleted periodic armed threads state callers]; rewrite Nat.eqb_refl; repeat (split; [solve [eauto | discriminate]|]); intros; discriminate).
  - unfold get_state in E. rewrite D in E. injection E as <- <-. split; [|discriminate]. unfold stuck. eauto 12.
  - unfold expire in E. rewrite A in E. destruct (threads w t0); discriminate.
  - unfold proceed in E. rewrite U in E by assumption. discriminate.
Qed.
Lemma stuck_run i t l : forall w w' es, stuck i t w -> Forall (within i t) l -> run w l = Some (w', es) -> ~ In (StopReturns i true) es.
Proof.
  induction l as [|a l IH]; intros w w' es K F H; cbn [run] in H.
  - injection H as <- <-. intros [].
  - inversion F as [|? ? Q F']; subst. destruct (step w a) as [w1 e| |] eqn:S; try discriminate. unfold bind in H. destruct (run w1 l) as [[w2 es2]|] eqn:R; [|discriminate]. injection H as <- <-.
    destruct (stuck_step i t w a w1 e K Q S) as (K1 & N). intros [X|X]; [exact (N X)|]. exact (IH w1 w2 es2 K1 F' R X).
Qed.

Lemma setitimers_ok p l : forall s, (once s = None \/ once s = Some p) -> (p = false -> interval s = 0) -> Forall (fun x => snd x = p /\ 0 <= fst x) l ->
  Forall2 (fun x y => fst y = fst x /\ (0 < fst x -> snd y = if p then fst x else 0)) l (setitimers s l).
Proof.
  induction l as [|[ticks q] l IH]; intros s O I F; [constructor|]. pose proof (Forall_inv F) as (Q & T). pose proof (Forall_inv_tail F) as F'. cbn [fst snd] in Q, T. subst q. cbn [setitimers].
  unfold setitimer. assert ((match once s with Some p => p | None => p end) = p) as -> by (destruct O as [-> | ->]; reflexivity).
  destruct (Z.ltb_spec 0 ticks) as [L|L].
  - constructor; [cbn; auto|]. apply IH; [right; reflexivity| |assumption]. intros ->. reflexivity.
  - constructor; [cbn; split; lia|]. apply IH; [right; reflexivity|assumption|assumption].
Qed.
Lemma window_ok interval : 0 <= interval < 2^63 -> window interval = Z.max 1000000000 (2 * interval).
Proof. intros H. unfold window, u64. rewrite Z.mod_small by lia. destruct (Z.ltb_spec (interval * 2) 1000000000); lia. Qed.

Lemma deleted_run l : forall w w' es, deleted w = true -> armed w = false -> run w l = Some (w', es) -> ~ In Expires es.
Proof.
  induction l as [|a l IH]; intros w w' es D A H; cbn [run] in H.
  - injection H as <- <-. intros [].
  - assert (K : forall w1 e, step w a = Does w1 e -> deleted w1 = true /\ armed w1 = false /\ e <> Expires).
    { intros w1 e S. destruct a; cbn [step] in S; unfold start, stop, next, spurious, timeout, get_state, fini, expire, proceed in S; rewrite ?D, ?A in S.
      all: repeat match type of S with context [match ?x with _ => _ end] => destruct x; try discriminate end.
      all: try discriminate S; injection S as <- <-; cbn; repeat split; try assumption; discriminate. }
    destruct (step w a) as [w1 e| |]; try discriminate. destruct (K w1 e eq_refl) as (D1 & A1 & N). unfold bind in H. destruct (run w1 l) as [[w2 es2]|] eqn:R; [|discriminate]. injection H as <- <-.
    intros [X|X]; [exact (N X)|]. exact (IH w1 w2 es2 D1 A1 R X).
Qed.
