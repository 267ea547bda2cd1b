From Coq Require Import ZArith List Bool Lia.
From Verif Require Import CInt CUtil MuxModel MuxSpec MuxProofs.
Import ListNotations.
Local Open Scope Z_scope.

Lemma mem_rc m g w fd : minv m g -> ((if mem fd (g w) then fd else -1) <? 0) = negb (mem fd (g w)).
Proof.
  intros (S & _). destruct (mem fd (g w)) eqn:M; [|reflexivity]. apply mem_In in M. pose proof (proj1 (proj2 (S w)) fd M). cbn [negb]. apply Z.ltb_ge. lia.
Qed.

Lemma close_ok m g fd closed : minv m g -> exists m' rc, mux_close m fd closed = Some (m', rc) /\
  rc = (if closed <? 0 then -1 else if existsb (fun w => mem fd (g w)) [READ; WRITE; ACCEPT; URGENT; INTERRUPT] then 0 else -2) /\ minv m' (fun w => without fd (g w)).
Proof.
  intros V. pose proof V as (S & RA & UI). unfold mux_close.
  destruct (unregister_raw m g ACCEPT fd S) as (m1 & r1 & E1 & C1 & S1 & A1 & I1 & _). rewrite E1. cbn [bind]. set (g1 := update g ACCEPT (without fd (g ACCEPT))) in *.
  destruct (unregister_raw m1 g1 READ fd S1) as (m2 & r2 & E2 & C2 & S2 & A2 & I2 & _). rewrite E2. cbn [bind]. set (g2 := update g1 READ (without fd (g1 READ))) in *.
  destruct (unregister_raw m2 g2 WRITE fd S2) as (m3 & r3 & E3 & C3 & S3 & A3 & I3 & _). rewrite E3. cbn [bind]. set (g3 := update g2 WRITE (without fd (g2 WRITE))) in *.
  destruct (unregister_raw m3 g3 URGENT fd S3) as (m4 & r4 & E4 & C4 & S4 & A4 & I4 & _). rewrite E4. cbn [bind]. set (g4 := update g3 URGENT (without fd (g3 URGENT))) in *.
  destruct (unregister_raw m4 g4 INTERRUPT fd S4) as (m5 & r5 & E5 & C5 & S5 & A5 & I5 & _). rewrite E5. cbn [bind].
  change (g1 READ) with (g READ) in C2, A2, I2. change (g2 WRITE) with (g WRITE) in C3, A3, I3. change (g3 URGENT) with (g URGENT) in C4, A4, I4. change (g4 INTERRUPT) with (g INTERRUPT) in C5, A5, I5, S5.
  eexists m5, _. split; [reflexivity|]. split.
  - rewrite C1, C2, C3, C4, C5. rewrite !(mem_rc m g) by exact V. cbn [existsb]. rewrite orb_false_r. destruct (closed <? 0); [reflexivity|].
    destruct (mem fd (g READ)), (mem fd (g WRITE)), (mem fd (g ACCEPT)), (mem fd (g URGENT)), (mem fd (g INTERRUPT)); reflexivity.
  - cbn [which_eqb orb] in *. rewrite andb_false_r in A3, A4, A5, I1, I2, I3. rewrite andb_true_r in A1, A2, I4, I5. rewrite A4 in A5. rewrite A3 in A5. rewrite A2, A1 in A5. rewrite I4, I3, I2, I1 in I5.
    split; [intros w; specialize (S5 w); destruct w; exact S5|]. rewrite A5, I5.
    assert (GEN : forall s a b, set_is s (fun x => In x (g a) \/ In x (g b)) -> set_is (if mem fd (g b) then Z.clearbit (if mem fd (g a) then Z.clearbit s fd else s) fd else if mem fd (g a) then Z.clearbit s fd else s) (fun x => In x (without fd (g a)) \/ In x (without fd (g b)))).
    { intros s a b SI. destruct (mem fd (g a)) eqn:MA, (mem fd (g b)) eqn:MB.
      - apply mem_In in MA. pose proof (proj1 (proj2 (S a)) fd MA). apply (set_is_ext _ (fun x => ((In x (g a) \/ In x (g b)) /\ x <> fd) /\ x <> fd)); [apply clearbit_is; [lia|apply clearbit_is; [lia|exact SI]]|]. intros x. rewrite !without_In. tauto.
      - apply mem_In in MA. pose proof (proj1 (proj2 (S a)) fd MA). apply mem_not in MB. apply (set_is_ext _ (fun x => (In x (g a) \/ In x (g b)) /\ x <> fd)); [apply clearbit_is; [lia|exact SI]|]. intros x. rewrite !without_In. tauto.
      - apply mem_In in MB. pose proof (proj1 (proj2 (S b)) fd MB). apply mem_not in MA. apply (set_is_ext _ (fun x => (In x (g a) \/ In x (g b)) /\ x <> fd)); [apply clearbit_is; [lia|exact SI]|]. intros x. rewrite !without_In. tauto.
      - apply mem_not in MA, MB. rewrite !without_id by assumption. exact SI. }
    split; [|exact (GEN _ URGENT INTERRUPT UI)]. apply (set_is_ext _ (fun x => In x (without fd (g ACCEPT)) \/ In x (without fd (g READ)))); [|intros x; tauto]. apply GEN. apply (set_is_ext _ _ _ RA). intros x; tauto.
Qed.

(** * Waiting *)

Lemma census_le s n : n <= census s n /\ max s < census s n.
Proof. unfold census. destruct (Z.leb_spec n (max s)); lia. Qed.
Lemma census_is s n : census s n = n \/ census s n = max s + 1 /\ n <= max s.
Proof. unfold census. destruct (Z.leb_spec n (max s)); lia. Qed.
Lemma nfds_ok m g : minv m g -> 0 <= mux_nfds m /\ (forall w fd, In fd (g w) -> 0 <= fd < mux_nfds m) /\ (mux_nfds m = 0 \/ exists w, In (mux_nfds m - 1) (g w)).
Proof.
  intros (S & _). unfold mux_nfds.
  set (a := census (sets m READ) 0). set (b := census (sets m WRITE) a). set (c := census (sets m ACCEPT) b). set (d := census (sets m URGENT) c). set (e := census (sets m INTERRUPT) d).
  pose proof (census_le (sets m READ) 0) as L1. pose proof (census_le (sets m WRITE) a) as L2. pose proof (census_le (sets m ACCEPT) b) as L3. pose proof (census_le (sets m URGENT) c) as L4. pose proof (census_le (sets m INTERRUPT) d) as L5.
  fold a in L1. fold b in L2. fold c in L3. fold d in L4. fold e in L5.
  assert (MX : forall w, 0 <= max (sets m w) -> In (max (sets m w)) (g w)).
  { intros w H. destruct (S w) as (_ & _ & B). destruct (g w); [destruct B as (_ & B & _); unfold MOSTNEGATIVE in B; lia|tauto]. }
  split; [lia|]. split.
  - intros w fd I. pose proof (proj1 (proj2 (S w)) fd I). assert (fd <= max (sets m w)) by (destruct (S w) as (_ & _ & B); destruct (g w); [destruct I|apply B, I]). destruct w; lia.
  - destruct (census_is (sets m INTERRUPT) d) as [E|(E & H)]; fold e in E; [|right; exists INTERRUPT; replace (e - 1) with (max (sets m INTERRUPT)) by lia; apply MX; lia].
    destruct (census_is (sets m URGENT) c) as [E2|(E2 & H)]; fold d in E2; [|right; exists URGENT; replace (e - 1) with (max (sets m URGENT)) by lia; apply MX; lia].
    destruct (census_is (sets m ACCEPT) b) as [E3|(E3 & H)]; fold c in E3; [|right; exists ACCEPT; replace (e - 1) with (max (sets m ACCEPT)) by lia; apply MX; lia].
    destruct (census_is (sets m WRITE) a) as [E4|(E4 & H)]; fold b in E4; [|right; exists WRITE; replace (e - 1) with (max (sets m WRITE)) by lia; apply MX; lia].
    destruct (census_is (sets m READ) 0) as [E5|(E5 & H)]; fold a in E5; [left; lia|right; exists READ; replace (e - 1) with (max (sets m READ)) by lia; apply MX; lia].
Qed.

Lemma reset_ok s l : sinv s l -> sinv (set_reset s) l.
Proof.
  intros V. unfold set_reset. destruct (next s >=? 0); [exact V|]. destruct (Z.ltb_spec (max s) 0) as [|M]; [exact V|]. apply (sinv_same s _ l V); [reflexivity|reflexivity|reflexivity|]. right. right. destruct V as (_ & _ & B). cbn [next].
  destruct l as [|x l]; [destruct B as (_ & B & _); unfold MOSTNEGATIVE in B; lia|]. split; [discriminate|]. destruct B as (B1 & B2 & B3 & _). specialize (B3 _ B2). lia.
Qed.
Lemma with_ready_ok s l r : sinv s l -> sinv (with_ready s r) l.
Proof. intros V. apply (sinv_same s _ l V); [reflexivity|reflexivity|reflexivity|left; reflexivity]. Qed.

Lemma wait_ok m g pselect ticks : minv m g -> exists m' s, mux_step m (Wait pselect ticks) = Some (m', s) /\ agrees (Waits g ticks) s /\ minv m' g.
Proof.
  intros V. pose proof V as (S & RA & UI). cbn [mux_step]. unfold mux_wait. destruct (nfds_ok m g V) as (N0 & N1 & N2). destruct ((mux_nfds m >? 0) || negb (ticks =? 0)) eqn:G.
  - eexists _, _. split; [reflexivity|]. split.
    + cbn [agrees called]. split; [exact RA|]. split; [exact (proj1 (S WRITE))|]. split; [exact UI|]. cbn [c_nfds]. auto.
    + set (a := pselect _). assert (V1 : minv (with_set m WRITE (with_ready (sets m WRITE) (a_write a))) g).
      { split; [|split; [exact RA|exact UI]]. intros w. unfold with_set. cbn [sets]. destruct (which_eqb_spec w WRITE) as [E|]; [rewrite E; apply with_ready_ok, S|apply S]. }
      destruct (a_rc a >? 0); [|exact V1]. destruct V1 as (S1 & R1 & U1). split; [|split; [exact R1|exact U1]]. intros w. cbn [sets]. apply reset_ok. destruct w; [apply with_ready_ok, S1|apply S1|apply with_ready_ok, S1|apply with_ready_ok, S1|apply with_ready_ok, S1].
  - apply orb_false_iff in G as (G1 & G2). apply negb_false_iff, Z.eqb_eq in G2. rewrite Z.gtb_ltb in G1. apply Z.ltb_ge in G1. eexists m, _. split; [reflexivity|]. split; [|exact V]. cbn [agrees called]. split; [exact G2|].
    intros w. destruct (g w) as [|x l] eqn:E; [reflexivity|]. specialize (N1 w x). rewrite E in N1. specialize (N1 (or_introl eq_refl)). lia.
Qed.

(** * The cursor *)

Lemma ready_loop_keeps : forall fuel s wrapped s' fd, min s <= next s <= max s -> ready_loop fuel s wrapped = Some (s', fd) ->
  active s' = active s /\ min s' = min s /\ max s' = max s /\ min s <= next s' <= max s.
Proof.
  induction fuel as [|fuel IH]; intros s wrapped s' fd B E; [discriminate|]. cbn [ready_loop] in E.
  destruct (fd_isset (next s) (ready s)) as [r|]; [|discriminate]. cbn [bind] in E.
  destruct (if r then let* isactive := fd_isset (next s) (active s) in let* rdy := fd_clr (if isactive : bool then next s else -1) (ready s) in Some (rdy, if isactive then next s else -1) else Some (ready s, -1)) as [(rdy, f)|]; [|discriminate]. cbn [bind] in E.
  assert (NX : min s <= (if next s <? max s then next s + 1 else min s) <= max s) by (destruct (Z.ltb_spec (next s) (max s)); lia).
  destruct ((f <? 0) && negb ((if next s <? max s then next s + 1 else min s) =? wrapped)).
  - apply IH in E; [exact E|exact NX].
  - injection E as <- <-. cbn. auto.
Qed.
Lemma set_ready_ok s l s' fd : sinv s l -> set_ready s = Some (s', fd) -> sinv s' l.
Proof.
  intros V E. unfold set_ready in E. rewrite Z.geb_leb in E. destruct (Z.leb_spec 0 (next s)); [|injection E as <- <-; exact V].
  assert (B : l <> [] /\ min s <= next s <= max s). { destruct V as (_ & _ & B). destruct l; [destruct B as (_ & _ & B); lia|]. split; [discriminate|]. destruct B as (_ & _ & _ & [B|B]); lia. } destruct B as (NE & B).
  destruct (ready_loop (Z.to_nat FD_SETSIZE) s (next s)) as [(s1, f)|] eqn:EL; [|discriminate]. cbn [bind] in E. destruct (ready_loop_keeps _ _ _ _ _ B EL) as (K1 & K2 & K3 & K4). injection E as <- <-.
  destruct (f <? 0); apply (sinv_same s _ l V); cbn; auto.
Qed.
Lemma mux_ready_ok m g w m' fd : minv m g -> mux_ready m w = Some (m', fd) -> minv m' g.
Proof.
  intros (S & RA & UI) E. unfold mux_ready in E. destruct (set_ready (sets m w)) as [(s, f)|] eqn:ES; [|discriminate]. injection E as <- <-. split; [|split; [exact RA|exact UI]].
  intros v. unfold with_set. cbn [sets]. destruct (which_eqb_spec v w) as [EQ|]; [rewrite EQ; exact (set_ready_ok _ _ _ _ (S w) ES)|apply S].
Qed.

(** * Every history *)

Lemma step_ok m g o g' e : minv m g -> r_step g o = Some (g', e) -> (forall w, o <> Ready w) -> exists m' s, mux_step m o = Some (m', s) /\ agrees e s /\ minv m' g'.
Proof.
  intros V E NR. destruct o as [w fd|w fd|fd closed|pselect ticks|w|sg|sg].
  - destruct (register_ok m g w fd V) as (m' & rc & g1 & E1 & E2 & V1 & _). rewrite E2 in E. injection E as <- <-. exists m', (Seen rc None). cbn [mux_step]. rewrite E1. cbn [bind agrees]. auto.
  - destruct (unregister_ok m g w fd g' e V E) as (m' & rc & E1 & -> & V1). exists m', (Seen rc None). cbn [mux_step]. rewrite E1. cbn [bind agrees]. auto.
  - destruct (close_ok m g fd closed V) as (m' & rc & E1 & E2 & V1). cbn [r_step] in E. injection E as <- <-. exists m', (Seen rc None). cbn [mux_step]. rewrite E1. cbn [bind agrees result]. auto.
  - cbn [r_step] in E. injection E as <- <-. apply wait_ok, V.
  - destruct (NR w eq_refl).
  - cbn [r_step] in E. injection E as <- <-. cbn [mux_step]. unfold register_signal. destruct (negb (valid_signal sg)); [|destruct (Z.testbit (mask m) sg)]; eexists _, _; (split; [reflexivity|]); (split; [exact I|exact V]).
  - cbn [r_step] in E. injection E as <- <-. cbn [mux_step]. unfold unregister_signal. destruct (negb (valid_signal sg)); [|destruct (negb (Z.testbit (mask m) sg))]; eexists _, _; (split; [reflexivity|]); (split; [exact I|exact V]).
Qed.
Lemma run_ok : forall ops m g g' es m' ss, minv m g -> r_run g ops = Some (g', es) -> mux_run m ops = Some (m', ss) -> Forall2 agrees es ss /\ minv m' g'.
Proof.
  induction ops as [|o ops IH]; intros m g g' es m' ss V E1 E2; cbn [r_run mux_run] in *.
  - injection E1 as <- <-. injection E2 as <- <-. split; [constructor|exact V].
  - destruct (r_step g o) as [(g1, e)|] eqn:ES; [|discriminate]. destruct (r_run g1 ops) as [(g2, es2)|] eqn:ER; [|discriminate]. injection E1 as <- <-.
    destruct (mux_step m o) as [(m1, s)|] eqn:EM; [|discriminate]. cbn [bind] in E2. destruct (mux_run m1 ops) as [(m2, ss2)|] eqn:EN; [|discriminate]. cbn [bind] in E2. injection E2 as <- <-.
    assert (ST : agrees e s /\ minv m1 g1).
    { assert (DR : (exists w, o = Ready w) \/ (forall w, o <> Ready w)) by (destruct o; [right; discriminate|right; discriminate|right; discriminate|right; discriminate|left; eauto|right; discriminate|right; discriminate]).
      destruct DR as [(w & ->)|NR].
      - cbn [r_step] in ES. injection ES as <- <-. cbn [mux_step] in EM. destruct (mux_ready m w) as [(m3, f)|] eqn:MR; [|discriminate]. injection EM as <- <-. split; [exact I|]. eapply mux_ready_ok; eassumption.
      - destruct (step_ok m g o g1 e V ES NR) as (m3 & s3 & E3 & A3 & V3). rewrite EM in E3. injection E3 as <- <-. auto. }
    destruct ST as (A & V1). destruct (IH m1 g1 g2 es2 m2 ss2 V1 ER EN) as (F & V2). split; [constructor; assumption|exact V2].
Qed.
