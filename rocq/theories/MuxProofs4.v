From Coq Require Import ZArith List Bool Lia.
From Verif Require Import CInt CUtil MuxModel MuxSpec MuxProofs MuxProofs2 MuxProofs3.
Import ListNotations.
Local Open Scope Z_scope.

(** * A round *)

Lemma sets_with m w s v : sets (with_set m w s) v = if which_eqb v w then s else sets m v. Proof. reflexivity. Qed.
Lemma ready_neg s : next s = -1 -> set_ready s = Some (s, -1).
Proof. intros E. unfold set_ready. rewrite E. reflexivity. Qed.
Lemma run_cons m o ops m1 s m2 ss : mux_step m o = Some (m1, s) -> mux_run m1 ops = Some (m2, ss) -> mux_run m (o :: ops) = Some (m2, s :: ss).
Proof. intros E1 E2. cbn [mux_run]. rewrite E1. cbn [bind]. rewrite E2. reflexivity. Qed.
Lemma step_ready m w s fd : set_ready (sets m w) = Some (s, fd) -> mux_step m (Ready w) = Some (with_set m w s, Seen fd None).
Proof. intros E. cbn [mux_step]. unfold mux_ready. rewrite E. reflexivity. Qed.

Lemma rounds w : forall l m, let s := sets m w in 0 <= min s -> max s <= 1023 -> min s <= next s <= max s -> (forall x, min s <= x <= max s -> Z.testbit (ready s) x = true -> Z.testbit (active s) x = true) ->
  filter (Z.testbit (ready s)) (cyclic (min s) (max s) (next s)) = l ->
  exists m', mux_run m (repeat (Ready w) (S (length l))) = Some (m', results (l ++ [-1])).
Proof.
  induction l as [|fd l IH]; intros m s H1 H2 H3 A E; pose proof (take_one s H1 H2 H3 A) as T; rewrite E in T.
  - eexists. cbn [length repeat]. eapply run_cons; [apply step_ready, T|reflexivity].
  - destruct T as (R & s' & E1 & E2 & R2 & F). destruct (IH (with_set m w s')) as (m' & EM).
    + rewrite sets_with, which_eqb_refl, E2. exact H1.
    + rewrite sets_with, which_eqb_refl, E2. exact H2.
    + rewrite sets_with, which_eqb_refl, E2. cbn [min max next] in *. rewrite E2 in R2. exact R2.
    + rewrite sets_with, which_eqb_refl, E2. cbn [min max ready active]. intros x RX T. apply A; [exact RX|]. rewrite Z.clearbit_eqb in T by lia. apply andb_true_iff in T as (T & _). exact T.
    + rewrite sets_with, which_eqb_refl. exact F.
    + exists m'. cbn [length repeat] in *. eapply run_cons; [apply step_ready, E1|exact EM].
Qed.

(** What a wait that reports something leaves. *)
Lemma wait_sets m pselect ticks m' s c : mux_step m (Wait pselect ticks) = Some (m', s) -> called s = Some c -> a_rc (pselect c) > 0 ->
  c = Call (mux_nfds m) (read_or_accept m) (active (sets m WRITE)) (urgent_or_interrupt m) /\
  forall w, sets m' w = set_reset (with_ready (sets m w) (reported (pselect c) w)).
Proof.
  intros E C R. cbn [mux_step] in E. unfold mux_wait in E. destruct ((mux_nfds m >? 0) || negb (ticks =? 0)); [|injection E as <- <-; discriminate].
  injection E as <- <-. cbn [called] in C. injection C as <-. split; [reflexivity|]. intros w. set (a := pselect _) in *. rewrite Z.gtb_ltb. destruct (Z.ltb_spec 0 (a_rc a)); [|lia]. destruct w; reflexivity.
Qed.

(** The state in which a round begins. *)
Lemma round_from m g w a m' : minv m g -> apart g w a -> sets m' w = set_reset (with_ready (sets m w) (reported a w)) ->
  forall p, (g w = [] \/ next (sets m w) = -1 /\ 0 <= p <= min (sets m w) \/ 0 <= next (sets m w) /\ (p = next (sets m w) \/ exists x, min (sets m w) <= x <= max (sets m w) /\ next (sets m w) = succ (min (sets m w)) (max (sets m w)) x /\ p = x + 1)) ->
  exists m'', mux_run m' (repeat (Ready w) (S (length (served g w a p)))) = Some (m'', results (served g w a p ++ [-1])).
Proof.
  intros (S & _) AP E p P. destruct (S w) as (A & R & B). destruct (g w) as [|y l] eqn:G.
  - assert (SV : served g w a p = []) by (unfold served; rewrite G; apply filter_none; reflexivity). rewrite SV. destruct B as (B1 & B2 & B3). eexists. cbn [length repeat]. eapply run_cons; [|reflexivity]. apply step_ready. apply ready_neg. rewrite E. unfold set_reset, with_ready. cbn [next max]. rewrite B3, B2. reflexivity.
  - destruct B as (B1 & B2 & B3 & B4). pose proof (R _ B1) as R1. pose proof (R _ B2) as R2. pose proof (B3 _ B1) as B5.
    assert (ST : exists q, sets m' w = MSet (active (sets m w)) (reported a w) (min (sets m w)) (max (sets m w)) q /\ min (sets m w) <= q <= max (sets m w) /\ (q = next (sets m w) \/ next (sets m w) = -1 /\ q = min (sets m w))).
    { rewrite E. unfold set_reset, with_ready. cbn [next max min active ready]. rewrite Z.geb_leb. destruct (Z.leb_spec 0 (next (sets m w))).
      - eexists. split; [reflexivity|]. split; [lia|auto].
      - destruct (Z.ltb_spec (max (sets m w)) 0); [lia|]. eexists. split; [reflexivity|]. split; [lia|]. right. split; [lia|reflexivity]. }
    destruct ST as (q & ES & Q & QN).
    assert (IN : forall x, In x (g w) <-> Z.testbit (active (sets m w)) x = true).
    { intros x. rewrite G. destruct (Z_lt_dec x 0) as [N|]; [|symmetry; apply A; lia]. rewrite Z.testbit_neg_r by lia. split; [intros I; specialize (R x I); lia|discriminate]. }
    set (f := fun fd => mem fd (g w) && Z.testbit (reported a w) fd).
    assert (FB : forall x, f x = true -> min (sets m w) <= x <= max (sets m w)) by (intros x FX; apply andb_true_iff in FX as (M & _); apply mem_In in M; apply B3; rewrite <- G; exact M).
    assert (SV : served g w a p = filter f (cyclic (min (sets m w)) (max (sets m w)) q)).
    { unfold served. fold f. destruct P as [P|[(N & P)|(N & [P|(x & X & NX & P)])]]; [discriminate| | |].
      - destruct QN as [QN|(_ & QN)]; [lia|]. rewrite QN. rewrite <- (cyclic_widen f (min (sets m w)) (max (sets m w)) (min (sets m w))) by (lia || exact FB).
        unfold cyclic. rewrite (range_app p (min (sets m w) - 1) 1023), (range_app 0 (p - 1) (min (sets m w) - 1)) by lia. replace (min (sets m w) - 1 + 1) with (min (sets m w)) by lia. replace (p - 1 + 1) with p by lia. rewrite !filter_app.
        rewrite (filter_none f (range p (min (sets m w) - 1))), (filter_none f (range 0 (p - 1))); [reflexivity| |]; intros x I; apply range_In in I; destruct (f x) eqn:FX; [apply FB in FX; lia|reflexivity|apply FB in FX; lia|reflexivity].
      - destruct QN as [QN|QN]; [|lia]. rewrite P, QN. apply cyclic_widen; [lia|lia|lia|exact FB].
      - destruct QN as [QN|QN]; [|lia]. rewrite P, QN, NX. apply cyclic_succ; [lia|lia|lia|exact FB]. }
    rewrite SV. apply rounds; rewrite ES; cbn [min max next ready active]; [lia|lia|exact Q| |].
    + intros x RX T. apply IN. apply (AP (min (sets m w)) x (max (sets m w))); [rewrite G; exact B1|rewrite G; exact B2|exact RX|exact T].
    + apply filter_ext_in. intros x I. apply cyclic_In in I; [|lia]. unfold f. destruct (Z.testbit (reported a w) x) eqn:T; [|rewrite andb_false_r; reflexivity]. rewrite andb_true_r. symmetry. apply mem_In. apply (AP (min (sets m w)) x (max (sets m w))); [rewrite G; exact B1|rewrite G; exact B2|exact I|exact T].
Qed.

Lemma round_ok m g w pselect ticks m1 s c : minv m g -> mux_step m (Wait pselect ticks) = Some (m1, s) -> called s = Some c -> a_rc (pselect c) > 0 -> apart g w (pselect c) ->
  exists p m2, 0 <= p <= 1023 /\ mux_run m1 (repeat (Ready w) (S (length (served g w (pselect c) p)))) = Some (m2, results (served g w (pselect c) p ++ [-1])).
Proof.
  intros V E C RC AP. destruct (wait_sets _ _ _ _ _ _ E C RC) as (_ & ES). pose proof (proj1 V w) as (A & R & B).
  set (p := if next (sets m w) <? 0 then 0 else next (sets m w)). exists p.
  destruct (round_from m g w (pselect c) m1 V AP (ES w) p) as (m2 & EM).
  - destruct (g w) as [|y l]; [left; reflexivity|]. right. destruct B as (B1 & B2 & B3 & B4). pose proof (R _ B1). pose proof (R _ B2). unfold p. destruct (Z.ltb_spec (next (sets m w)) 0); [left; lia|right; split; [lia|auto]].
  - exists m2. split; [|exact EM]. unfold p. destruct (g w) as [|y l]; [destruct B as (_ & _ & ->); cbn; lia|]. destruct B as (B1 & B2 & B3 & B4). pose proof (R _ B1). pose proof (R _ B2). destruct (Z.ltb_spec (next (sets m w)) 0); lia.
Qed.

(** * Taking up where it was left *)

Lemma take_next m g w m' fd : minv m g -> mux_step m (Ready w) = Some (m', Seen fd None) -> 0 <= fd -> let s := sets m' w in
  min s <= fd <= max s /\ next s = succ (min s) (max s) fd /\ 0 <= next s /\ g w <> [].
Proof.
  intros V E F. pose proof (proj1 V w) as (A & R & B). cbn [mux_step] in E. unfold mux_ready in E. destruct (set_ready (sets m w)) as [(s, f)|] eqn:ES; [|discriminate]. injection E as <- ->. rewrite sets_with, which_eqb_refl. cbv zeta.
  assert (N : 0 <= next (sets m w)) by (destruct (Z_lt_dec (next (sets m w)) 0); [|lia]; exfalso; unfold set_ready in ES; rewrite Z.geb_leb in ES; destruct (Z.leb_spec 0 (next (sets m w))); [lia|]; injection ES as <- <-; lia).
  destruct (g w) as [|y l]; [lia|]. destruct B as (B1 & B2 & B3 & B4). pose proof (R _ B1). pose proof (R _ B2). rewrite set_ready_is in ES by lia.
  destruct (find _ _) as [x|] eqn:EF; [|injection ES as <- <-; lia]. destruct (Z.testbit (active (sets m w)) x); [|discriminate]. injection ES as <- <-. cbn [min max next].
  apply find_some in EF as (I & _). apply cyclic_In in I; [|lia]. pose proof (succ_in (min (sets m w)) (max (sets m w)) x I). split; [exact I|]. split; [reflexivity|]. split; [lia|discriminate].
Qed.
Lemma alone_step m w o m' s : leaves_alone w o -> mux_step m o = Some (m', s) -> 0 <= next (sets m w) -> next (sets m' w) = next (sets m w) /\ min (sets m' w) = min (sets m w) /\ max (sets m' w) = max (sets m w).
Proof.
  intros L E N. destruct o as [| | |pselect ticks|v| |]; try contradiction; cbn [mux_step] in E.
  - unfold mux_wait in E. destruct ((mux_nfds m >? 0) || negb (ticks =? 0)); [|injection E as <- <-; auto]. injection E as <- <-. destruct (a_rc _ >? 0); [|destruct w; auto].
    cbn [sets]. unfold set_reset. destruct w; cbn [with_ready next sets with_set which_eqb]; rewrite Z.geb_leb; (match goal with |- context [0 <=? ?n] => destruct (Z.leb_spec 0 n) end; [auto|lia]).
  - cbn [leaves_alone] in L. unfold mux_ready in E. destruct (set_ready (sets m v)) as [(s1, f)|]; [|discriminate]. injection E as <- <-. rewrite sets_with. destruct (which_eqb_spec w v) as [->|]; [contradiction|auto].
Qed.
Lemma alone_run w : forall ops m g m' ss, Forall (leaves_alone w) ops -> minv m g -> mux_run m ops = Some (m', ss) -> 0 <= next (sets m w) -> minv m' g /\ next (sets m' w) = next (sets m w) /\ min (sets m' w) = min (sets m w) /\ max (sets m' w) = max (sets m w).
Proof.
  induction ops as [|o ops IH]; intros m g m' ss F V E N; cbn [mux_run] in E; [injection E as <- <-; auto|]. inversion F as [|? ? L F2]; subst.
  destruct (mux_step m o) as [(m1, s)|] eqn:ES; [|discriminate]. cbn [bind] in E. destruct (mux_run m1 ops) as [(m2, ss2)|] eqn:ER; [|discriminate]. injection E as <- <-.
  destruct (alone_step m w o m1 s L ES N) as (E1 & E2 & E3).
  assert (V1 : minv m1 g). { destruct o as [| | |pselect ticks|v| |]; try contradiction; [destruct (wait_ok m g pselect ticks V) as (m3 & s3 & EW & _ & V3); rewrite ES in EW; injection EW as <- <-; exact V3|]. cbn [mux_step] in ES. destruct (mux_ready m v) as [(m3, f)|] eqn:MR; [|discriminate]. injection ES as <- <-. eapply mux_ready_ok; eassumption. }
  destruct (IH m1 g m2 ss2 F2 V1 ER) as (V2 & E4 & E5 & E6); [lia|]. split; [exact V2|]. rewrite E4, E5, E6. auto.
Qed.
Lemma resumes_ok m g w m1 fd ops m2 ss pselect ticks m3 s c : minv m g -> mux_step m (Ready w) = Some (m1, Seen fd None) -> 0 <= fd -> Forall (leaves_alone w) ops -> mux_run m1 ops = Some (m2, ss) ->
  mux_step m2 (Wait pselect ticks) = Some (m3, s) -> called s = Some c -> a_rc (pselect c) > 0 -> apart g w (pselect c) ->
  exists m4, mux_run m3 (repeat (Ready w) (S (length (served g w (pselect c) (fd + 1))))) = Some (m4, results (served g w (pselect c) (fd + 1) ++ [-1])).
Proof.
  intros V E F L ER EW C RC AP. destruct (take_next m g w m1 fd V E F) as (R & NX & N0 & NE).
  assert (V1 : minv m1 g) by (cbn [mux_step] in E; destruct (mux_ready m w) as [(m5, f)|] eqn:MR; [|discriminate]; injection E as <- <-; eapply mux_ready_ok; eassumption).
  destruct (alone_run w ops m1 g m2 ss L V1 ER N0) as (V2 & E4 & E5 & E6). destruct (wait_sets _ _ _ _ _ _ EW C RC) as (_ & ES).
  apply (round_from m2 g w (pselect c) m3 V2 AP (ES w)). right. right. rewrite E4. split; [lia|]. right. exists fd. rewrite E5, E6. auto.
Qed.
