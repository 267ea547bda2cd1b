From Coq Require Import ZArith List Bool Arith Lia.
From Verif Require Import CInt CUtil MuxModel MuxSpec MuxProofs MuxProofs2 MuxProofs3 MuxProofs4 MuxProofs5 PollModel PollSpec PollProofs PollProofs2.
Import ListNotations.
Local Open Scope Z_scope.

(** * Every call *)

Definition pinv (p : poller) (g : registry) (stale : bool) : Prop := all_inv (p_mux p) g /\ (stale = false -> linv p g).
(** What is ready is registered. *)
Definition tidy (p : poller) (g : registry) : Prop := forall w x, Z.testbit (ready (sets (p_mux p) w)) x = true -> In x (g w).

Lemma knownb_eq g fd : existsb (fun w => mem fd (g w)) [READ; WRITE; ACCEPT; URGENT; INTERRUPT] = knownb g fd. Proof. reflexivity. Qed.
Lemma linv_ext p g g' : linv p g -> (forall x, evs g x = evs g' x) -> linv p g'.
Proof. intros L E F. destruct (L F) as (L1 & L2). split; [|exact L2]. apply (lay_ext _ _ _ _ L1). intros x _. apply E. Qed.
Lemma evs_without g fd x : knownb g fd = false -> evs (fun w => without fd (g w)) x = evs g x.
Proof.
  intros K. assert (N : forall w, without fd (g w) = g w).
  { intros w. apply without_id. intros I. assert (known g fd) by (exists w; exact I). apply knownb_known in H. congruence. }
  unfold evs, knownb, wanted. cbn [existsb]. rewrite !N. reflexivity.
Qed.

Lemma pstep_ok p g stale o g' stale' e : pinv p g stale -> p_step g stale o = Some (g', stale', e) -> (forall w, o <> PReady w) ->
  exists p' s, poll_step p o = Some (p', s) /\ p_agrees e s /\ pinv p' g' stale' /\
  (match o with PWait _ ppoll _ => moved (p_mux p) g (p_called s) ppoll (p_mux p') | _ => tidy p g -> tidy p' g' end).
Proof.
  intros (S & LI) E NR. destruct o as [w fd|w fd|fd closed|memory ppoll ticks|w]; cbn [p_step poll_step] in *.
  - unfold poll_register. destruct (register_raw (p_mux p) g w fd S) as (m' & rc & -> & C & RD). cbn [bind]. eexists _, _. split; [reflexivity|]. cbn [p_mux]. destruct C as [(ER & B & NI & S')|(ER & EM & C)].
    + destruct (Z.leb_spec 0 fd); [|lia]. destruct (Z.ltb_spec fd 1024); [|lia]. rewrite (proj2 (mem_not fd (g w)) NI) in E. cbn [andb negb] in E. injection E as <- <- <-. rewrite ER. rewrite Z.geb_leb. destruct (Z.leb_spec 0 fd); [|lia]. split; [reflexivity|]. split; [split; [exact S'|intros _ F; discriminate F]|].
      intros T v x R. specialize (T v x (RD v x R)). unfold update. destruct (which_eqb_spec v w) as [EQ|]; [rewrite <- EQ; right; exact T|exact T].
    + rewrite C in E. injection E as <- <- <-. rewrite ER, EM. cbn [Z.geb Z.compare]. split; [reflexivity|]. split; [split; [exact S|exact LI]|]. intros T. exact T.
  - unfold poll_unregister. destruct (unregister_raw (p_mux p) g w fd S) as (m' & rc & E1 & ER & S' & _). pose proof (unregister_ready _ _ _ _ _ E1) as UR. rewrite E1. cbn [bind]. eexists _, _. split; [reflexivity|]. cbn [p_mux]. destruct (mem fd (g w)) eqn:M.
    + injection E as <- <- <-. apply mem_In in M. destruct (S w) as (_ & R & _). specialize (R fd M). rewrite ER. rewrite Z.geb_leb. destruct (Z.leb_spec 0 fd); [|lia]. split; [reflexivity|]. split; [split; [exact S'|intros _ F; discriminate F]|].
      intros T v x RX. destruct (UR v x RX) as (RX2 & NX). specialize (T v x RX2). unfold update. destruct (which_eqb_spec v w) as [EQ|]; [|exact T]. apply without_In. rewrite <- EQ. split; [exact T|apply NX; [exact EQ|lia]].
    + injection E as <- <- <-. rewrite ER. rewrite (unregister_not (p_mux p) g w fd S M) in E1. injection E1 as <- <-. cbn [Z.geb Z.compare]. split; [reflexivity|]. split; [split; [exact S|exact LI]|]. intros T. exact T.
  - unfold poll_close. destruct (close_raw (p_mux p) g fd closed S) as (m' & rc & -> & ER & S' & SAME & RD). cbn [bind]. eexists _, _. split; [reflexivity|]. injection E as <- <- <-. rewrite knownb_eq in *. cbn [p_mux with_mux]. split; [exact ER|]. split; [split; [exact S'|]|].
    + intros F. apply orb_false_iff in F as (F1 & F2). specialize (SAME F2). rewrite SAME. intros RF. cbn [with_mux refresh slots p_mux] in *. apply (linv_ext p g _ (LI F1)); [|exact RF]. intros x. symmetry. apply evs_without, F2.
    + intros T v x R. destruct (RD v x R) as (R1 & R2). specialize (T v x R1). apply without_In. split; [exact T|]. intros EX. rewrite EX in T. exact (R2 T EX).
  - destruct stale; [discriminate|]. destruct memory; [|discriminate]. cbn [orb negb] in E. injection E as <- <- <-. destruct (wait_step p g ppoll ticks S (LI eq_refl)) as (p' & rc & c & -> & S' & L' & A & M). cbn [bind]. eexists _, _. split; [reflexivity|]. split; [exact A|]. split; [split; [exact S'|intros _; exact L']|exact M].
  - destruct (NR w eq_refl).
Qed.

Lemma pready_ok p g stale w p' s : pinv p g stale -> poll_step p (PReady w) = Some (p', s) -> pinv p' g stale.
Proof.
  intros (S & LI) E. cbn [poll_step] in E. unfold poll_ready, mux_ready in E. destruct (set_ready (sets (p_mux p) w)) as [(s1, fd)|] eqn:R; [|discriminate]. cbn [bind] in E. injection E as <- <-.
  assert (S' : all_inv (with_set (p_mux p) w s1) g) by (intros v; rewrite sets_with; destruct (which_eqb_spec v w) as [EQ|]; [rewrite EQ; eapply set_ready_ok; [apply S|exact R]|apply S]).
  split; [exact S'|]. intros F RF. specialize (LI F RF). cbn [with_mux p_mux slots].
  assert (MM : forall v, min (sets (with_set (p_mux p) w s1) v) = min (sets (p_mux p) v) /\ max (sets (with_set (p_mux p) w s1) v) = max (sets (p_mux p) v)).
  { intros v. rewrite sets_with. destruct (which_eqb_spec v w) as [EQ|]; [rewrite EQ|auto]. destruct (S w) as (_ & _ & B). unfold set_ready in R. rewrite Z.geb_leb in R. destruct (Z.leb_spec 0 (next (sets (p_mux p) w))); [|injection R as <- <-; auto].
    destruct (ready_loop _ _ _) as [(s2, f2)|] eqn:RL; [|discriminate]. cbn [bind] in R. apply ready_loop_keeps in RL; [|destruct (g w); [lia|destruct B as (_ & _ & _ & B); lia]]. destruct RL as (_ & R2 & R3 & _). injection R as <- <-. destruct (f2 <? 0); cbn; auto. }
  rewrite (size_same _ _ (bounds_same _ _ MM)), (bounds_same _ _ MM). exact LI.
Qed.

Lemma prun_ok : forall ops p g stale g' stale' es p' ss, pinv p g stale -> p_run g stale ops = Some (g', stale', es) -> poll_run p ops = Some (p', ss) -> Forall2 p_agrees es ss /\ pinv p' g' stale'.
Proof.
  induction ops as [|o ops IH]; intros p g stale g' stale' es p' ss V E1 E2; cbn [p_run poll_run] in *; [injection E1 as <- <- <-; injection E2 as <- <-; auto|].
  destruct (p_step g stale o) as [((g1, st1), e)|] eqn:ES; [|discriminate]. destruct (p_run g1 st1 ops) as [((g2, st2), es2)|] eqn:ER; [|discriminate]. injection E1 as <- <- <-.
  destruct (poll_step p o) as [(p1, s)|] eqn:EP; [|discriminate]. cbn [bind] in E2. destruct (poll_run p1 ops) as [(p2, ss2)|] eqn:EQ; [|discriminate]. injection E2 as <- <-.
  assert (ST : p_agrees e s /\ pinv p1 g1 st1).
  { destruct o as [w fd|w fd|fd closed|memory ppoll ticks|w]; try (destruct (pstep_ok p g stale _ g1 st1 e V ES ltac:(discriminate)) as (p3 & s3 & E3 & A3 & V3 & _); rewrite EP in E3; injection E3 as <- <-; auto; fail).
    cbn [p_step] in ES. injection ES as <- <- <-. split; [exact I|]. eapply pready_ok; eassumption. }
  destruct ST as (A & V1). destruct (IH p1 g1 st1 g2 st2 es2 p2 ss2 V1 ER EQ) as (F & V2). auto.
Qed.
Lemma pinv_init mask : pinv (poll_init mask) nothing false.
Proof. split; [intros w; exact sinv_init|]. intros _ _. split; [intros i I; cbn in I; lia|vm_compute; discriminate]. Qed.

(** * Discipline *)

Definition ebit (w : which) : Z := match w with READ | ACCEPT => 0 | WRITE => 2 | URGENT | INTERRUPT => 1 end.
Lemma event_bit w y : Z.land y (event w) <> 0 -> Z.testbit y (ebit w) = true.
Proof.
  intros N. destruct (Z.testbit y (ebit w)) eqn:T; [reflexivity|]. exfalso. apply N. replace (event w) with (2 ^ ebit w) by (destruct w; reflexivity). apply Z.bits_inj'. intros k K. rewrite Z.land_spec, Z.bits_0, Z.pow2_bits_eqb by (destruct w; cbn; lia).
  destruct (Z.eqb_spec (ebit w) k) as [<-|]; [rewrite T; reflexivity|apply andb_false_r].
Qed.
Lemma wanted_bit g x w : Z.testbit (Z.lor (wanted g x) (Z.lor POLLERR (Z.lor POLLHUP POLLNVAL))) (ebit w) = true -> In x (g w) \/ exists v, partner w = Some v /\ In x (g v).
Proof.
  intros T. rewrite <- !mem_In. unfold wanted in T. destruct w; cbn [partner ebit] in *.
  - destruct (mem x (g READ)); [auto|]. destruct (mem x (g ACCEPT)) eqn:M; [right; exists ACCEPT; rewrite <- mem_In; auto|]. destruct (mem x (g WRITE)), (mem x (g URGENT)), (mem x (g INTERRUPT)); discriminate T.
  - destruct (mem x (g WRITE)); [auto|]. destruct (mem x (g READ)), (mem x (g ACCEPT)), (mem x (g URGENT)), (mem x (g INTERRUPT)); discriminate T.
  - destruct (mem x (g ACCEPT)); [auto|]. destruct (mem x (g READ)) eqn:M; [right; exists READ; rewrite <- mem_In; auto|]. destruct (mem x (g WRITE)), (mem x (g URGENT)), (mem x (g INTERRUPT)); discriminate T.
  - destruct (mem x (g URGENT)); [auto|]. destruct (mem x (g INTERRUPT)) eqn:M; [right; exists INTERRUPT; rewrite <- mem_In; auto|]. destruct (mem x (g WRITE)), (mem x (g READ)), (mem x (g ACCEPT)); discriminate T.
  - destruct (mem x (g INTERRUPT)); [auto|]. destruct (mem x (g URGENT)) eqn:M; [right; exists URGENT; rewrite <- mem_In; auto|]. destruct (mem x (g WRITE)), (mem x (g READ)), (mem x (g ACCEPT)); discriminate T.
Qed.
Lemma reported_wanted g a r w x : asks_for g a -> p_conforms a r -> 0 <= x -> p_reported a r w x = true -> In x (g w) \/ exists v, partner w = Some v /\ In x (g v).
Proof.
  intros (A1 & _) (_ & C) X R. unfold p_reported in R. apply existsb_exists in R as (((f, e), y) & I & T). apply andb_true_iff in T as (T1 & T2). apply Z.eqb_eq in T1. subst f. apply negb_true_iff, Z.eqb_neq in T2.
  specialize (C x e y I). destruct (Z.ltb_spec x 0); [lia|]. apply in_combine_l in I. destruct (A1 x e I) as [N|(K & EW)]; [lia|]. apply (wanted_bit g x w). rewrite <- EW. apply C, event_bit, T2.
Qed.

Section Used.
Variable used : which -> Z -> Prop.
Hypothesis AP : forall w v lo fd hi, partner w = Some v -> used w lo -> used w hi -> used v fd -> ~ (lo <= fd <= hi).

Definition users (g : registry) : Prop := forall w fd, In fd (g w) -> used w fd.

(** What is renewed between the bounds of a set is in it. *)
Lemma renewed_in m g w a r x : all_inv m g -> users g -> asks_for g a -> p_conforms a r -> 0 <= x -> min (sets m w) <= x <= max (sets m w) -> p_reported a r w x = true -> In x (g w).
Proof using AP.
  intros S U A C X B R. destruct (reported_wanted g a r w x A C X R) as [I|(v & P & I)]; [exact I|]. exfalso. destruct (S w) as (_ & _ & K). destruct (g w) as [|y l] eqn:G; [unfold MOSTPOSITIVE, MOSTNEGATIVE in *; lia|]. destruct K as (K1 & K2 & _).
  apply (AP w v (min (sets m w)) x (max (sets m w)) P); [apply U; rewrite G; exact K1|apply U; rewrite G; exact K2|apply U, I|exact B].
Qed.
Lemma moved_tidy p g c ppoll p' : all_inv (p_mux p) g -> users g -> (forall a, p_conforms a (snd (ppoll a))) -> (forall a, c = Some a -> asks_for g a) -> moved (p_mux p) g c ppoll (p_mux p') -> tidy p g -> tidy p' g.
Proof using AP.
  intros S U C A [(E & _)|(a & EC & RC & M)] T w x TX; [rewrite E in TX; apply T, TX|]. destruct (M w) as (rdy & E & P). rewrite E in TX. destruct (reset_bounds (with_ready (sets (p_mux p) w) rdy)) as (_ & _ & RR). rewrite RR in TX. cbn [with_ready ready] in TX.
  destruct (Z_lt_dec x 0) as [N|]; [rewrite Z.testbit_neg_r in TX by lia; discriminate|]. rewrite P in TX; [|apply C|lia]. destruct (knownb g x && (min (sets (p_mux p) w) <=? x) && (x <=? max (sets (p_mux p) w))) eqn:B; [|apply T, TX].
  apply andb_true_iff in B as (B & B2). apply andb_true_iff in B as (_ & B1). apply Z.leb_le in B1, B2. eapply renewed_in; try eassumption; [apply A, EC|apply C|lia|lia].
Qed.
Lemma tidy_ready p g w : all_inv (p_mux p) g -> tidy p g -> exists p' s, poll_step p (PReady w) = Some (p', s) /\ tidy p' g.
Proof using.
  intros S T. destruct (S w) as (A & R & B).
  assert (G : exists s fd, set_ready (sets (p_mux p) w) = Some (s, fd) /\ (forall x, Z.testbit (ready s) x = true -> Z.testbit (ready (sets (p_mux p) w)) x = true)).
  { destruct (Z_lt_dec (next (sets (p_mux p) w)) 0) as [N|N].
    - exists (sets (p_mux p) w), (-1). split; [|auto]. unfold set_ready. rewrite Z.geb_leb. destruct (Z.leb_spec 0 (next (sets (p_mux p) w))); [lia|reflexivity].
    - destruct (g w) as [|y l] eqn:GW; [lia|]. destruct B as (B1 & B2 & B3 & B4). pose proof (R _ B1). pose proof (R _ B2). rewrite set_ready_is by lia. destruct (find _ _) as [x|] eqn:F; [|eexists _, _; split; [reflexivity|auto]].
      apply find_some in F as (I & TX). apply cyclic_In in I; [|lia]. specialize (T w x TX). rewrite (proj2 (A x ltac:(lia))) by (rewrite <- GW; exact T). eexists _, _. split; [reflexivity|]. cbn [ready]. intros z TZ. destruct (Z_lt_dec z 0); [rewrite Z.testbit_neg_r in TZ by lia; discriminate|]. rewrite Z.clearbit_eqb in TZ by lia. apply andb_true_iff in TZ. tauto. }
  destruct G as (s & fd & E & SUB). eexists _, _. split; [cbn [poll_step]; unfold poll_ready, mux_ready; rewrite E; reflexivity|]. cbn [p_mux with_mux]. intros v x TX. cbn [with_mux p_mux] in TX. rewrite sets_with in TX. destruct (which_eqb_spec v w) as [EQ|]; [rewrite EQ; apply T, SUB, TX|apply T, TX].
Qed.

Lemma disciplined_run : forall ops p g stale g' stale' es, (forall w fd, In (PRegister w fd) ops -> used w fd) -> (forall memory ppoll ticks, In (PWait memory ppoll ticks) ops -> forall c, p_conforms c (snd (ppoll c))) ->
  pinv p g stale -> users g -> tidy p g -> p_run g stale ops = Some (g', stale', es) -> exists p' ss, poll_run p ops = Some (p', ss) /\ pinv p' g' stale' /\ users g' /\ tidy p' g'.
Proof using AP.
  induction ops as [|o ops IH]; intros p g stale g' stale' es UO CO V U T E; cbn [p_run poll_run] in *; [injection E as <- <- <-; eauto 6|].
  destruct (p_step g stale o) as [((g1, st1), e)|] eqn:ES; [|discriminate]. destruct (p_run g1 st1 ops) as [((g2, st2), es2)|] eqn:ER; [|discriminate]. injection E as <- <- <-.
  assert (ST : exists p1 s, poll_step p o = Some (p1, s) /\ pinv p1 g1 st1 /\ users g1 /\ tidy p1 g1).
  { assert (U1 : users g1).
    { destruct o as [w fd|w fd|fd closed|memory ppoll ticks|w]; cbn [p_step] in ES.
      - destruct ((0 <=? fd) && (fd <? 1024) && negb (mem fd (g w))); injection ES as <- <- <-; [|exact U]. intros v x. unfold update. destruct (which_eqb_spec v w) as [EQ|]; [rewrite EQ; intros [<-|I]; [apply UO; left; reflexivity|apply U, I]|apply U].
      - destruct (mem fd (g w)); injection ES as <- <- <-; [|exact U]. intros v x. unfold update. destruct (which_eqb_spec v w) as [EQ|]; [rewrite EQ; intros I; apply without_In in I as (I & _); apply U, I|apply U].
      - injection ES as <- <- <-. intros v x I. apply without_In in I as (I & _). apply U, I.
      - destruct (stale || negb memory); [discriminate|]. injection ES as <- <- <-. exact U.
      - injection ES as <- <- <-. exact U. }
    destruct o as [w fd|w fd|fd closed|memory ppoll ticks|w]; try (destruct (pstep_ok p g stale _ g1 st1 e V ES ltac:(discriminate)) as (p3 & s3 & E3 & A3 & V3 & T3); exists p3, s3; split; [exact E3|split; [exact V3|split; [exact U1|exact (T3 T)]]]; fail).
    - destruct (pstep_ok p g stale _ g1 st1 e V ES ltac:(discriminate)) as (p3 & s3 & E3 & A3 & V3 & M). exists p3, s3. split; [exact E3|]. split; [exact V3|]. split; [exact U1|]. cbn [p_step] in ES. destruct (stale || negb memory); [discriminate|]. injection ES as <- <- <-.
      apply (moved_tidy p g (p_called s3) ppoll p3 (proj1 V) U); [intros a; apply (CO memory ppoll ticks); left; reflexivity| |exact M|exact T]. intros a EA. cbn [p_agrees] in A3. rewrite EA in A3. apply A3.
    - cbn [p_step] in ES. injection ES as <- <- <-. destruct (tidy_ready p g w (proj1 V) T) as (p1 & s & E & T1). exists p1, s. split; [exact E|]. split; [eapply pready_ok; eassumption|]. split; [exact U|exact T1]. }
  destruct ST as (p1 & s & E1 & V1 & U1 & T1). rewrite E1. cbn [bind].
  destruct (IH p1 g1 st1 g2 st2 es2) as (p2 & ss & E2 & V2 & U2 & T2); [intros w fd I; apply UO; right; exact I|intros a b c I; apply (CO a b c); right; exact I|exact V1|exact U1|exact T1|exact ER|]. rewrite E2. cbn [bind]. eauto 6.
Qed.
End Used.

(** * Rounds *)

Lemma lift_run w : forall n p m' l, mux_run (p_mux p) (repeat (Ready w) n) = Some (m', results l) -> poll_run p (repeat (PReady w) n) = Some (with_mux p m', p_results l).
Proof.
  induction n as [|n IH]; intros p m' l E.
  - cbn in *. destruct l; [|discriminate]. injection E as <-. destruct p; reflexivity.
  - cbn [repeat mux_run poll_run] in *. cbn [mux_step] in E. cbn [poll_step]. unfold poll_ready. destruct (mux_ready (p_mux p) w) as [(m1, fd)|]; [|discriminate]. cbn [bind] in *.
    destruct (mux_run m1 (repeat (Ready w) n)) as [(m2, ss)|] eqn:ER; [|discriminate]. cbn [bind] in E. destruct l as [|y l]; [discriminate|]. cbn [results map] in E. injection E as -> -> E3.
    assert (ER2 : mux_run (p_mux (with_mux p m1)) (repeat (Ready w) n) = Some (m', results l)) by (cbn [with_mux p_mux]; rewrite ER; unfold results; rewrite <- E3; reflexivity).
    rewrite (IH (with_mux p m1) m' l ER2). cbn [bind]. reflexivity.
Qed.

(** A multiplexer with the same sets, and what they share. *)
Definition full (m : mux) : mux := Mux (Z.lor (active (sets m READ)) (active (sets m ACCEPT))) (Z.lor (active (sets m URGENT)) (active (sets m INTERRUPT))) (sets m) (mask m).
Lemma full_inv m g : all_inv m g -> minv (full m) g.
Proof.
  intros S. split; [exact S|]. split; intros fd F; unfold full; cbn [read_or_accept urgent_or_interrupt]; rewrite Z.lor_spec, orb_true_iff.
  - rewrite (proj1 (S READ) fd F), (proj1 (S ACCEPT) fd F). tauto.
  - rewrite (proj1 (S URGENT) fd F), (proj1 (S INTERRUPT) fd F). tauto.
Qed.

Lemma round_at (used : which -> Z -> Prop) (AP : forall w v lo fd hi, partner w = Some v -> used w lo -> used w hi -> used v fd -> ~ (lo <= fd <= hi)) p g a ppoll p' w q :
  all_inv (p_mux p) g -> users used g -> tidy p g -> asks_for g a -> p_conforms a (snd (ppoll a)) -> moved (p_mux p) g (Some a) ppoll (p_mux p') -> 0 < fst (ppoll a) ->
  (g w = [] \/ next (sets (p_mux p) w) = -1 /\ 0 <= q <= min (sets (p_mux p) w) \/ 0 <= next (sets (p_mux p) w) /\ (q = next (sets (p_mux p) w) \/ exists x, min (sets (p_mux p) w) <= x <= max (sets (p_mux p) w) /\ next (sets (p_mux p) w) = succ (min (sets (p_mux p) w)) (max (sets (p_mux p) w)) x /\ q = x + 1)) -> 0 <= q <= 1024 ->
  exists p'', poll_run p' (repeat (PReady w) (S (length (p_served g w a (snd (ppoll a)) q)))) = Some (p'', p_results (p_served g w a (snd (ppoll a)) q ++ [-1])).
Proof.
  intros S U T A C M RC Q QB. destruct M as [(_ & N)|(a' & EA & _ & M)]; [specialize (N a eq_refl); lia|]. injection EA as <-. destruct (M w) as (rdy & E & P). specialize (P (proj1 C)).
  set (m := p_mux p) in *. destruct (S w) as (SA & R & B).
  assert (IN : forall x, 0 <= x -> min (sets m w) <= x <= max (sets m w) -> Z.testbit rdy x = true -> In x (g w)).
  { intros x X BX TX. rewrite (P x X) in TX. destruct (Z.leb_spec (min (sets m w)) x); [|lia]. destruct (Z.leb_spec x (max (sets m w))); [|lia]. rewrite !andb_true_r in TX. destruct (knownb g x); [|apply T, TX]. exact (renewed_in used AP m g w a _ x S U A C X BX TX). }
  assert (SV : served g w (Answer 1 rdy rdy rdy) q = p_served g w a (snd (ppoll a)) q).
  { unfold served, p_served. apply filter_ext_in. intros x I. apply cyclic_In in I; [|lia]. destruct (mem x (g w)) eqn:MX; [|reflexivity]. cbn [andb]. replace (reported (Answer 1 rdy rdy rdy) w) with rdy by (destruct w; reflexivity). rewrite (P x ltac:(lia)). apply mem_In in MX.
    assert (K : knownb g x = true) by (apply knownb_known; exists w; exact MX). rewrite K. destruct (g w) as [|y l]; [destruct MX|]. destruct B as (_ & _ & B & _). specialize (B x MX). destruct (Z.leb_spec (min (sets m w)) x); [|lia]. destruct (Z.leb_spec x (max (sets m w))); [|lia]. reflexivity. }
  destruct (round_from (full m) g w (Answer 1 rdy rdy rdy) (p_mux p')) with (p := q) as (m2 & EM); [apply full_inv, S| |rewrite E; destruct w; reflexivity|exact Q|].
  - intros lo x hi I1 I2 BX TX. assert (0 <= lo < 1024) by (apply R, I1). destruct (g w) as [|y l] eqn:G; [destruct I1|]. destruct B as (_ & _ & B & _). pose proof (B _ I1). pose proof (B _ I2). apply IN; [lia|lia|]. destruct w; exact TX.
  - rewrite SV in EM. eexists. apply lift_run. exact EM.
Qed.

Lemma p_run_app g0 st0 : forall a b g st es, p_run g0 st0 (a ++ b) = Some (g, st, es) -> exists g1 st1 es1 es2, p_run g0 st0 a = Some (g1, st1, es1) /\ p_run g1 st1 b = Some (g, st, es2) /\ es = es1 ++ es2.
Proof.
  intros a. revert g0 st0. induction a as [|o a IH]; intros g0 st0 b g st es E; [exists g0, st0, [], es; auto|]. cbn [app p_run] in *. destruct (p_step g0 st0 o) as [((g1, st1), e)|]; [|discriminate]. destruct (p_run g1 st1 (a ++ b)) as [((g2, st2), es2)|] eqn:ER; [|discriminate]. injection E as <- <- <-.
  destruct (IH g1 st1 b g2 st2 es2 ER) as (g3 & st3 & es3 & es4 & E3 & E4 & E5). rewrite E3. exists g3, st3, (e :: es3), es4. rewrite E5. auto.
Qed.
Lemma poll_run_app : forall a b p p' ss, poll_run p (a ++ b) = Some (p', ss) -> exists p1 s1 s2, poll_run p a = Some (p1, s1) /\ poll_run p1 b = Some (p', s2) /\ ss = s1 ++ s2.
Proof.
  induction a as [|o a IH]; intros b p p' ss E; [exists p, [], ss; auto|]. cbn [app poll_run] in *. destruct (poll_step p o) as [(p1, s)|]; [|discriminate]. cbn [bind] in *. destruct (poll_run p1 (a ++ b)) as [(p2, ss2)|] eqn:ER; [|discriminate]. cbn [bind] in E. injection E as <- <-.
  destruct (IH b p1 p2 ss2 ER) as (p3 & s3 & s4 & E3 & E4 & E5). rewrite E3. cbn [bind]. exists p3, (s :: s3), s4. rewrite E5. auto.
Qed.

(** * From an empty poller *)

Lemma discipline_run mask ops g st es : p_disciplined ops -> p_run nothing false ops = Some (g, st, es) -> exists p ss, poll_run (poll_init mask) ops = Some (p, ss) /\ pinv p g st /\ users (fun w fd => In (PRegister w fd) ops) g /\ tidy p g.
Proof.
  intros (D1 & D2) E. apply (disciplined_run (fun w fd => In (PRegister w fd) ops) D1 ops (poll_init mask) nothing false g st es); auto; [apply pinv_init|intros w fd []|]. intros w x T. cbn in T. rewrite Z.bits_0 in T. discriminate.
Qed.
(** The same for a part of a history. *)
Lemma discipline_part mask a b g st es : p_disciplined (a ++ b) -> p_run nothing false a = Some (g, st, es) -> exists p ss, poll_run (poll_init mask) a = Some (p, ss) /\ pinv p g st /\ users (fun w fd => In (PRegister w fd) (a ++ b)) g /\ tidy p g.
Proof.
  intros (D1 & D2) E. apply (disciplined_run (fun w fd => In (PRegister w fd) (a ++ b)) D1 a (poll_init mask) nothing false g st es); auto.
  - intros w fd I. apply in_app_iff. auto.
  - intros x y z I. apply (D2 x y z). apply in_app_iff. auto.
  - apply pinv_init.
  - intros w fd [].
  - intros w x T. cbn in T. rewrite Z.bits_0 in T. discriminate.
Qed.

Lemma round_run mask ops memory ppoll ticks g st es p ss p1 s c w : p_disciplined (ops ++ [PWait memory ppoll ticks]) -> p_run nothing false (ops ++ [PWait memory ppoll ticks]) = Some (g, st, es) ->
  poll_run (poll_init mask) ops = Some (p, ss) -> poll_step p (PWait memory ppoll ticks) = Some (p1, s) -> p_called s = Some c -> fst (ppoll c) > 0 ->
  exists q p2, 0 <= q <= 1023 /\ poll_run p1 (repeat (PReady w) (S (length (p_served g w c (snd (ppoll c)) q)))) = Some (p2, p_results (p_served g w c (snd (ppoll c)) q ++ [-1])).
Proof.
  intros D E EP EW EC RC. apply p_run_app in E as (g1 & st1 & es1 & es2 & E1 & E2 & _). destruct (discipline_part mask _ _ _ _ _ D E1) as (p0 & ss0 & EP0 & V & U & T). rewrite EP in EP0. injection EP0 as <- <-.
  cbn [p_run] in E2. destruct (p_step g1 st1 (PWait memory ppoll ticks)) as [((g2, st2), e)|] eqn:ES; [|discriminate]. injection E2 as E2 _ _. destruct (pstep_ok p g1 st1 _ g2 st2 e V ES ltac:(discriminate)) as (p3 & s3 & E3 & A3 & V3 & M). rewrite EW in E3. injection E3 as <- <-.
  cbn [p_step] in ES. destruct (st1 || negb memory); [discriminate|]. injection ES as <- <- <-. subst g. cbn [p_agrees] in A3. rewrite EC in A3, M. destruct A3 as (A & _).
  destruct D as (D1 & D2). assert (C : p_conforms c (snd (ppoll c))) by (apply (D2 memory ppoll ticks); apply in_app_iff; right; left; reflexivity).
  destruct V as (S & _). destruct (S w) as (SA & R & B). set (q := if next (sets (p_mux p) w) <? 0 then 0 else next (sets (p_mux p) w)). exists q.
  assert (QB : 0 <= q <= 1023).
  { unfold q. destruct (Z.ltb_spec (next (sets (p_mux p) w)) 0); [lia|]. destruct (g1 w) as [|y l]; [lia|]. destruct B as (B1 & B2 & B3 & B4). pose proof (R _ B1). pose proof (R _ B2). lia. }
  destruct (round_at _ D1 p g1 c ppoll p1 w q S U T A C M) as (p2 & EM); [lia| |lia|exists p2; split; [exact QB|exact EM]].
  destruct (g1 w) as [|y l]; [left; reflexivity|]. right. destruct B as (B1 & B2 & B3 & B4). pose proof (R _ B1). pose proof (R _ B2). unfold q. destruct (Z.ltb_spec (next (sets (p_mux p) w)) 0); [left; lia|right; split; [lia|auto]].
Qed.

Lemma ptake_next p g w p' fd : all_inv (p_mux p) g -> poll_step p (PReady w) = Some (p', PSeen fd None) -> 0 <= fd -> let s := sets (p_mux p') w in
  min s <= fd <= max s /\ next s = succ (min s) (max s) fd /\ 0 <= next s.
Proof.
  intros S E F. cbn [poll_step] in E. unfold poll_ready in E. destruct (mux_ready (p_mux p) w) as [(m1, f)|] eqn:MR; [|discriminate]. cbn [bind] in E. injection E as <- ->. cbn [with_mux p_mux].
  unfold mux_ready in MR. destruct (set_ready (sets (p_mux p) w)) as [(s1, f1)|] eqn:SR; [|discriminate]. injection MR as <- ->.
  destruct (take_next (full (p_mux p)) g w (with_set (full (p_mux p)) w s1) fd (full_inv _ _ S)) as (T1 & T2 & T3 & _); [cbn [mux_step]; unfold mux_ready; change (sets (full (p_mux p)) w) with (sets (p_mux p) w); rewrite SR; reflexivity|exact F|].
  rewrite sets_with, which_eqb_refl in *. auto.
Qed.
Lemma palone_run w : forall ops p g st g' st' es p' ss, Forall (p_leaves_alone w) ops -> pinv p g st -> p_run g st ops = Some (g', st', es) -> poll_run p ops = Some (p', ss) -> 0 <= next (sets (p_mux p) w) ->
  g' = g /\ next (sets (p_mux p') w) = next (sets (p_mux p) w) /\ min (sets (p_mux p') w) = min (sets (p_mux p) w) /\ max (sets (p_mux p') w) = max (sets (p_mux p) w).
Proof.
  induction ops as [|o ops IH]; intros p g st g' st' es p' ss F V E1 E2 N; cbn [p_run poll_run] in *; [injection E1 as <- <- <-; injection E2 as <- <-; auto|]. inversion F as [|? ? L F2]; subst.
  destruct (p_step g st o) as [((g1, st1), e)|] eqn:ES; [|discriminate]. destruct (p_run g1 st1 ops) as [((g2, st2), es2)|] eqn:ER; [|discriminate]. injection E1 as <- <- <-.
  destruct (poll_step p o) as [(p1, s)|] eqn:EP; [|discriminate]. cbn [bind] in E2. destruct (poll_run p1 ops) as [(p2, ss2)|] eqn:EQ; [|discriminate]. injection E2 as <- <-.
  assert (ST : g1 = g /\ pinv p1 g st1 /\ next (sets (p_mux p1) w) = next (sets (p_mux p) w) /\ min (sets (p_mux p1) w) = min (sets (p_mux p) w) /\ max (sets (p_mux p1) w) = max (sets (p_mux p) w)).
  { destruct o as [v fd|v fd|fd closed|memory ppoll ticks|v]; try contradiction.
    - destruct (pstep_ok p g st _ g1 st1 e V ES ltac:(discriminate)) as (p3 & s3 & E3 & A3 & V3 & M). rewrite EP in E3. injection E3 as <- <-. cbn [p_step] in ES. destruct (st || negb memory); [discriminate|]. injection ES as <- <- <-. split; [reflexivity|]. split; [exact V3|].
      destruct M as [(M & _)|(a & _ & _ & M)]; [rewrite M; auto|]. destruct (M w) as (rdy & EM & _). rewrite EM. unfold set_reset. cbn [with_ready next]. rewrite Z.geb_leb. destruct (Z.leb_spec 0 (next (sets (p_mux p) w))); [auto|lia].
    - pose proof (pready_ok p g st v p1 s V EP) as V1. cbn [p_step] in ES. injection ES as <- <- <-. split; [reflexivity|]. split; [exact V1|]. cbn [poll_step] in EP. unfold poll_ready, mux_ready in EP. destruct (set_ready (sets (p_mux p) v)) as [(s1, f1)|]; [|discriminate]. cbn [bind] in EP. injection EP as <- <-. cbn [with_mux p_mux]. rewrite sets_with.
      destruct (which_eqb_spec w v) as [EV|]; [cbn [p_leaves_alone] in L; congruence|auto]. }
  destruct ST as (-> & V1 & N1 & N2 & N3). destruct (IH p1 g st1 g2 st2 es2 p2 ss2 F2 V1 ER EQ) as (I0 & I1 & I2 & I3); [lia|]. rewrite I1, I2, I3. auto.
Qed.

Lemma resumes_run mask before w ops memory ppoll ticks g st es p0 ss0 p fd p2 ss p3 s c :
  p_disciplined (before ++ PReady w :: ops ++ [PWait memory ppoll ticks]) -> p_run nothing false (before ++ PReady w :: ops ++ [PWait memory ppoll ticks]) = Some (g, st, es) ->
  poll_run (poll_init mask) before = Some (p0, ss0) -> poll_step p0 (PReady w) = Some (p, PSeen fd None) -> 0 <= fd -> Forall (p_leaves_alone w) ops -> poll_run p ops = Some (p2, ss) ->
  poll_step p2 (PWait memory ppoll ticks) = Some (p3, s) -> p_called s = Some c -> fst (ppoll c) > 0 ->
  exists p4, poll_run p3 (repeat (PReady w) (S (length (p_served g w c (snd (ppoll c)) (fd + 1))))) = Some (p4, p_results (p_served g w c (snd (ppoll c)) (fd + 1) ++ [-1])).
Proof.
  intros D E EB EF F L EO EW EC RC.
  assert (SP : before ++ PReady w :: ops ++ [PWait memory ppoll ticks] = (before ++ PReady w :: ops) ++ [PWait memory ppoll ticks]) by (rewrite <- app_assoc; reflexivity).
  rewrite SP in D, E. apply p_run_app in E as (g1 & st1 & es1 & es2 & E1 & E2 & _).
  assert (EA : poll_run (poll_init mask) (before ++ PReady w :: ops) = Some (p2, ss0 ++ PSeen fd None :: ss)).
  { clear -EB EF EO. revert EB. generalize (poll_init mask) as q. revert ss0. induction before as [|o before IH]; intros ss0 q EB; cbn [app poll_run] in *.
    - injection EB as <- <-. rewrite EF. cbn [bind]. rewrite EO. reflexivity.
    - destruct (poll_step q o) as [(q1, s1)|]; [|discriminate]. cbn [bind] in *. destruct (poll_run q1 before) as [(q2, ss2)|] eqn:ER; [|discriminate]. cbn [bind] in EB. injection EB as <- <-. rewrite (IH ss2 q1 ER). reflexivity. }
  destruct (discipline_part mask _ _ _ _ _ D E1) as (p9 & ss9 & EP9 & V & U & T). rewrite EA in EP9. injection EP9 as <- <-.
  apply p_run_app in E1 as (g0 & st0 & es0 & es3 & E0 & E1 & _). destruct (prun_ok _ _ _ _ _ _ _ _ _ (pinv_init mask) E0 EB) as (_ & V0). destruct (ptake_next p0 g0 w p fd (proj1 V0) EF F) as (T1 & T2 & T3). pose proof (pready_ok p0 g0 st0 w p _ V0 EF) as V1.
  cbn [p_run] in E1. cbn [p_step] in E1. destruct (p_run g0 st0 ops) as [((g5, st5), es5)|] eqn:E5; [|discriminate]. injection E1 as <- <- <-. destruct (palone_run w ops p g0 st0 _ _ _ _ _ L V1 E5 EO T3) as (EG & N1 & N2 & N3). subst g5.
  cbn [p_run] in E2. destruct (p_step g0 st5 (PWait memory ppoll ticks)) as [((g2, st2), e)|] eqn:ES; [|discriminate]. injection E2 as E2 _ _. destruct (pstep_ok p2 g0 st5 _ g2 st2 e V ES ltac:(discriminate)) as (p8 & s8 & E8 & A8 & V8 & M). rewrite EW in E8. injection E8 as <- <-.
  cbn [p_step] in ES. destruct (st5 || negb memory); [discriminate|]. injection ES as <- <- <-. subst g. cbn [p_agrees] in A8. rewrite EC in A8, M. destruct A8 as (A & _).
  destruct D as (D1 & D2). assert (C : p_conforms c (snd (ppoll c))) by (apply (D2 memory ppoll ticks); apply in_app_iff; right; left; reflexivity).
  destruct (proj1 V w) as (SA & R & B).
  apply (round_at _ D1 p2 g0 c ppoll p3 w (fd + 1) (proj1 V) U T A C M); [lia| |].
  - right. right. rewrite N1, N2, N3. split; [exact T3|]. right. exists fd. auto.
  - destruct (g0 w) as [|y l]; [destruct B as (B1 & B2 & B3); rewrite N2 in B1; rewrite N3 in B2; unfold MOSTPOSITIVE, MOSTNEGATIVE in *; lia|]. destruct B as (B1 & B2 & _). pose proof (R _ B2). rewrite N3 in H. lia.
Qed.
