From Coq Require Import ZArith List Bool Lia.
From Verif Require Import CInt CUtil MuxModel MuxSpec MuxProofs MuxProofs2 MuxProofs3 MuxProofs4.
Import ListNotations.
Local Open Scope Z_scope.

(** * No starvation *)

Lemma taken_cons w o ops s ss : taken w (o :: ops) (s :: ss) = if takes w o then result s :: taken w ops ss else taken w ops ss.
Proof. unfold taken. cbn [combine filter]. destruct (takes w o); reflexivity. Qed.
Lemma waited_called m g w fd pselect ticks m' s : minv m g -> In fd (g w) -> mux_step m (Wait pselect ticks) = Some (m', s) -> exists c, called s = Some c.
Proof.
  intros V I E. destruct (wait_ok m g pselect ticks V) as (m1 & s1 & E1 & A & _). rewrite E in E1. injection E1 as <- <-. cbn [agrees] in A. destruct (called s) as [c|]; [eauto|]. destruct A as (_ & A). rewrite (A w) in I. destruct I.
Qed.
Lemma find_app {A} (f : A -> bool) l1 l2 : find f (l1 ++ l2) = match find f l1 with Some x => Some x | None => find f l2 end.
Proof. induction l1 as [|x l1 IH]; [reflexivity|]. cbn [app find]. destruct (f x); [reflexivity|exact IH]. Qed.

Lemma starve_run w fd g : In fd (g w) -> forall h m m' ss l1 l2, minv m g -> let s := sets m w in 0 <= next s -> Z.testbit (ready s) fd = true -> cyclic (min s) (max s) (next s) = l1 ++ fd :: l2 ->
  Forall (keeps_reporting g w fd) h -> mux_run m h = Some (m', ss) -> (length (filter (Z.testbit (active s)) l1) < length (filter (takes w) h))%nat -> In fd (taken w h ss).
Proof.
  intros I. induction h as [|o h IH]; intros m m' ss l1 l2 V s N T CY K E L; [cbn in L; lia|]. cbn [mux_run] in E. inversion K as [|? ? KO KH]; subst.
  destruct (mux_step m o) as [(m1, s1)|] eqn:ES; [|discriminate]. cbn [bind] in E. destruct (mux_run m1 h) as [(m2, ss2)|] eqn:ER; [|discriminate]. injection E as <- <-. rewrite taken_cons. cbn [filter] in L.
  destruct o as [| | |pselect ticks|v| |]; try contradiction; cbn [takes] in *.
  - destruct (waited_called m g w fd pselect ticks m1 s1 V I ES) as (c & C). cbn [keeps_reporting] in KO. destruct (KO c) as (K1 & K2). destruct (wait_sets _ _ _ _ _ _ ES C K1) as (_ & SE). specialize (SE w). fold s in SE.
    assert (SE2 : sets m1 w = with_ready s (reported (pselect c) w)) by (rewrite SE; unfold set_reset, with_ready; cbn [next]; rewrite Z.geb_leb; destruct (Z.leb_spec 0 (next s)); [reflexivity|lia]).
    destruct (wait_ok m g pselect ticks V) as (m3 & s3 & EW & _ & V3). rewrite ES in EW. injection EW as <- <-.
    apply (IH m1 m2 ss2 l1 l2 V3); rewrite ?SE2; unfold with_ready; cbn [next ready min max active]; assumption.
  - pose proof ES as ES2. cbn [mux_step] in ES. destruct (mux_ready m v) as [(m3, f)|] eqn:MR; [|discriminate]. cbn [bind] in ES. injection ES as <- <-. pose proof (mux_ready_ok m g v m3 f V MR) as V1.
    unfold mux_ready in MR. destruct (set_ready (sets m v)) as [(s2, f2)|] eqn:SR; [|discriminate]. injection MR as <- <-. destruct (which_eqb_spec v w) as [EQ|NE].
    2:{ apply (IH (with_set m v s2) m2 ss2 l1 l2 V1); rewrite ?sets_with; destruct (which_eqb_spec w v) as [EQ|_]; [congruence|assumption|congruence|assumption|congruence|assumption|exact KH|exact KH|exact ER|exact ER|congruence|assumption]. }
    subst v. pose proof (proj1 V w) as (A & R & B). fold s in A, B, SR. destruct (g w) as [|y l] eqn:G; [destruct I|]. destruct B as (B1 & B2 & B3 & B4). pose proof (R _ B1). pose proof (R _ B2).
    assert (NR : min s <= next s <= max s) by lia. rewrite set_ready_is in SR by lia. rewrite CY, find_app in SR. cbn [find] in SR. rewrite T in SR. cbn [result In].
    destruct (find (Z.testbit (ready s)) l1) as [x|] eqn:F1.
    + destruct (Z.testbit (active s) x) eqn:AX; [|discriminate]. injection SR as <- <-. right. apply find_split in F1 as (a & b & E1 & TX & _).
      pose proof (cyclic_NoDup (min s) (max s) (next s)) as ND. rewrite CY in ND. pose proof (NoDup_remove_2 _ _ _ ND) as NI. assert (NX : x <> fd) by (intros ->; apply NI; rewrite E1; apply in_app_iff; left; apply in_app_iff; right; left; reflexivity).
      assert (CY2 : cyclic (min s) (max s) (next s) = a ++ x :: (b ++ fd :: l2)) by (rewrite CY, E1, <- app_assoc; reflexivity). destruct (cyclic_rotate _ _ _ _ _ _ NR CY2) as (RX & RO).
      apply (IH _ m2 ss2 b (l2 ++ a ++ [x]) V1); rewrite ?sets_with, ?which_eqb_refl; cbn [next ready min max active].
      * pose proof (succ_in _ _ _ RX). lia.
      * rewrite Z.clearbit_neq by auto. exact T.
      * rewrite RO, <- app_assoc. reflexivity.
      * exact KH.
      * exact ER.
      * rewrite E1, filter_app, app_length in L. cbn [filter] in L. rewrite AX in L. cbn [length] in L. lia.
    + assert (AF : Z.testbit (active s) fd = true) by (apply A; [pose proof (R fd I); lia|exact I]). rewrite AF in SR. injection SR as <- <-. left. reflexivity.
Qed.
Lemma starve_ok m g w fd pselect ticks h m' ss : minv m g -> In fd (g w) -> Forall (keeps_reporting g w fd) (Wait pselect ticks :: h) -> mux_run m (Wait pselect ticks :: h) = Some (m', ss) ->
  (length (g w) <= length (filter (takes w) h))%nat -> In fd (taken w (Wait pselect ticks :: h) ss).
Proof.
  intros V I K E L. inversion K as [|? ? KO KH]; subst. cbn [mux_run] in E. destruct (mux_step m (Wait pselect ticks)) as [(m1, s1)|] eqn:ES; [|discriminate]. cbn [bind] in E. destruct (mux_run m1 h) as [(m2, ss2)|] eqn:ER; [|discriminate]. injection E as <- <-.
  rewrite taken_cons. cbn [takes]. destruct (waited_called m g w fd pselect ticks m1 s1 V I ES) as (c & C). cbn [keeps_reporting] in KO. destruct (KO c) as (K1 & K2). destruct (wait_sets _ _ _ _ _ _ ES C K1) as (_ & SE). specialize (SE w).
  destruct (wait_ok m g pselect ticks V) as (m3 & s3 & EW & _ & V1). rewrite ES in EW. injection EW as <- <-. pose proof (proj1 V1 w) as (A & R & B). pose proof (proj1 V w) as (_ & _ & B').
  assert (NX : 0 <= next (sets m1 w) /\ ready (sets m1 w) = reported (pselect c) w).
  { rewrite SE. unfold set_reset, with_ready. cbn [next max]. rewrite Z.geb_leb. destruct (Z.leb_spec 0 (next (sets m w))); [cbn; auto|]. destruct (g w) as [|y l]; [destruct I|]. destruct B' as (B1 & B2 & _). pose proof (R _ B1). pose proof (R _ B2). destruct (Z.ltb_spec (max (sets m w)) 0); [lia|]. cbn. split; [lia|reflexivity]. }
  destruct NX as (N & RD). assert (RG : 0 <= min (sets m1 w) /\ max (sets m1 w) <= 1023 /\ min (sets m1 w) <= next (sets m1 w) <= max (sets m1 w) /\ min (sets m1 w) <= fd <= max (sets m1 w)).
  { destruct (g w) as [|y l]; [destruct I|]. destruct B as (B1 & B2 & B3 & B4). pose proof (R _ B1). pose proof (R _ B2). specialize (B3 fd I). lia. }
  destruct RG as (R1 & R2 & R3 & R4). assert (IC : In fd (cyclic (min (sets m1 w)) (max (sets m1 w)) (next (sets m1 w)))) by (apply cyclic_In; lia). apply in_split in IC as (l1 & l2 & CY).
  apply (starve_run w fd g I h m1 m2 ss2 l1 l2 V1); auto; [rewrite RD; exact K2|].
  pose proof (cyclic_NoDup (min (sets m1 w)) (max (sets m1 w)) (next (sets m1 w))) as ND. rewrite CY in ND.
  assert (LE : (length (fd :: filter (Z.testbit (active (sets m1 w))) l1) <= length (g w))%nat); [|cbn [length] in LE; lia]. apply NoDup_incl_length.
  - apply NoDup_remove in ND as (ND & NI). constructor; [intros IN; apply filter_In in IN as (IN & _); apply NI, in_app_iff; auto|]. apply NoDup_filter. clear -ND. induction l1 as [|x l1 IH]; [constructor|]. cbn [app] in ND. inversion ND as [|? ? N1 N2]; subst. constructor; [intros IN; apply N1, in_app_iff; auto|apply IH, N2].
  - intros x [<-|IN]; [exact I|]. apply filter_In in IN as (IN & T). assert (In x (cyclic (min (sets m1 w)) (max (sets m1 w)) (next (sets m1 w)))) as XI by (rewrite CY; apply in_app_iff; auto). apply cyclic_In in XI; [|lia]. apply A; [lia|exact T].
Qed.

(** * Programs for which a call is never undefined *)

Lemma unregister_ready m w fd m' rc : mux_unregister m w fd = Some (m', rc) -> forall v x, Z.testbit (ready (sets m' v)) x = true -> Z.testbit (ready (sets m v)) x = true /\ (v = w -> 0 <= rc -> x <> fd).
Proof.
  unfold mux_unregister. unfold fd_isset, fd_clr. unfold in_set_size. destruct ((0 <=? fd) && (fd <? FD_SETSIZE)) eqn:IR; cbn [negb]; [|intros E v x T; injection E as <- <-; split; [exact T|lia]].
  cbn [bind]. destruct (Z.testbit (active (sets m w)) fd); [|intros E v x T; injection E as <- <-; split; [exact T|lia]].
  intros E v x T. cbn [bind] in E.
  assert (G : exists roa uoi s, set_bound (MSet (Z.clearbit (active (sets m w)) fd) (Z.clearbit (ready (sets m w)) fd) (min (sets m w)) (max (sets m w)) (next (sets m w))) = Some s /\ m' = with_set (Mux roa uoi (sets m) (mask m)) w (set_normalize s)).
  { destruct w; cbn [which_eqb bind] in E; destruct (set_bound _) as [s|]; try discriminate; cbn [bind] in E; injection E as <- _; eexists _, _, s; split; reflexivity. }
  destruct G as (roa & uoi & s & EB & ->). rewrite sets_with in T. destruct (which_eqb_spec v w) as [->|NE]; [|split; [exact T|contradiction]].
  unfold set_bound in EB. cbn [active ready min max next] in EB. destruct (bound_loop _ _ _ _ _) as [(lo, hi)|]; [|discriminate]. cbn [bind] in EB. injection EB as <-. cbn [set_normalize ready] in T.
  apply andb_true_iff in IR as (IR & _). apply Z.leb_le in IR. rewrite Z.clearbit_eqb in T by lia. apply andb_true_iff in T as (T & T2). split; [exact T|]. intros _ _ ->. rewrite Z.eqb_refl in T2. discriminate.
Qed.

Definition tame (used : which -> Z -> Prop) (m : mux) (g : registry) : Prop :=
  minv m g /\ (forall w fd, In fd (g w) -> used w fd) /\
  (forall w x, Z.testbit (ready (sets m w)) x = true -> In x (g w) \/ exists v, partner w = Some v /\ used v x).

Lemma tame_ready (used : which -> Z -> Prop) m g w : (forall w v lo fd hi, partner w = Some v -> used w lo -> used w hi -> used v fd -> ~ (lo <= fd <= hi)) -> tame used m g -> exists m' s, mux_step m (Ready w) = Some (m', s) /\ tame used m' g.
Proof.
  intros AP (V & U & RD). pose proof (proj1 V w) as (A & R & B).
  assert (G : exists s fd, set_ready (sets m w) = Some (s, fd) /\ (forall x, Z.testbit (ready s) x = true -> Z.testbit (ready (sets m w)) x = true)).
  { destruct (Z_lt_dec (next (sets m w)) 0) as [N|N].
    - exists (sets m w), (-1). split; [|auto]. unfold set_ready. rewrite Z.geb_leb. destruct (Z.leb_spec 0 (next (sets m w))); [lia|reflexivity].
    - destruct (g w) as [|y l] eqn:GW; [lia|]. destruct B as (B1 & B2 & B3 & B4). pose proof (R _ B1). pose proof (R _ B2). rewrite set_ready_is by lia. destruct (find _ _) as [x|] eqn:F; [|eexists _, _; split; [reflexivity|auto]].
      apply find_some in F as (I & T). apply cyclic_In in I; [|lia]. destruct (RD w x T) as [IG|(v & P & UV)].
      + rewrite (proj2 (A x ltac:(lia))) by (rewrite <- GW; exact IG). eexists _, _. split; [reflexivity|]. cbn [ready]. intros z TZ. rewrite Z.clearbit_eqb in TZ by lia. apply andb_true_iff in TZ. tauto.
      + destruct (AP w v (min (sets m w)) x (max (sets m w)) P); [apply U; rewrite GW; exact B1|apply U; rewrite GW; exact B2|exact UV|lia]. }
  destruct G as (s & fd & E & SUB). assert (MR : mux_ready m w = Some (with_set m w s, fd)) by (unfold mux_ready; rewrite E; reflexivity).
  exists (with_set m w s), (Seen fd None). split; [cbn [mux_step]; rewrite MR; reflexivity|]. split; [eapply mux_ready_ok; eassumption|]. split; [exact U|]. intros v x T. rewrite sets_with in T. destruct (which_eqb_spec v w) as [->|]; [apply RD, SUB, T|apply RD, T].
Qed.
Lemma tame_step (used : which -> Z -> Prop) m g o : (forall w v lo fd hi, partner w = Some v -> used w lo -> used w hi -> used v fd -> ~ (lo <= fd <= hi)) ->
  (match o with Register w fd => used w fd | Wait pselect _ => forall c, conforms c (pselect c) | _ => True end) ->
  tame used m g -> exists m' s g' e, mux_step m o = Some (m', s) /\ r_step g o = Some (g', e) /\ tame used m' g'.
Proof.
  intros AP OK TM. pose proof TM as (V & U & RD). destruct o as [w fd|w fd|fd closed|pselect ticks|w|sg|sg].
  - destruct (register_ok m g w fd V) as (m' & rc & g1 & E1 & E2 & V1 & _ & RE). exists m', (Seen rc None), g1, (Returns rc). split; [cbn [mux_step]; rewrite E1; reflexivity|]. split; [exact E2|]. split; [exact V1|].
    cbn [r_step] in E2. destruct ((0 <=? fd) && (fd <? 1024) && negb (mem fd (g w))) eqn:C.
    + injection E2 as <- <-. split.
      * intros v x. unfold update. destruct (which_eqb_spec v w) as [->|]; [intros [<-|I]; [exact OK|apply U, I]|apply U].
      * intros v x T. rewrite RE in T. apply andb_true_iff in C as (C & _). apply andb_true_iff in C as (C & _). rewrite C, andb_true_r in T. apply Z.leb_le in C. unfold update. destruct (which_eqb_spec v w) as [->|]; [|apply RD, T].
        rewrite Z.clearbit_eqb in T by lia. apply andb_true_iff in T as (T & _). destruct (RD w x T) as [I|I]; [left; right; exact I|right; exact I].
    + injection E2 as <- <-. split; [exact U|]. intros v x T. rewrite RE in T. rewrite andb_false_r in T. apply RD, T.
  - destruct (r_step g (Unregister w fd)) as [(g1, e)|] eqn:ER.
    + destruct (unregister_ok m g w fd g1 e V ER) as (m' & rc & E1 & E2 & V1). exists m', (Seen rc None), g1, e. split; [cbn [mux_step]; rewrite E1; reflexivity|]. split; [reflexivity|]. split; [exact V1|].
      pose proof (unregister_ready _ _ _ _ _ E1) as UR. cbn [r_step] in ER. destruct (mem fd (g w)) eqn:M.
      * destruct (shared g w fd); [discriminate|]. injection ER as <- <-. injection E2 as <-. apply mem_In in M. pose proof (proj1 (proj2 (proj1 V w)) fd M) as F. split.
        -- intros v x. unfold update. destruct (which_eqb_spec v w) as [->|]; [intros I; apply without_In in I as (I & _); apply U, I|apply U].
        -- intros v x T. apply UR in T as (T & NX). unfold update. destruct (which_eqb_spec v w) as [->|]; [|apply RD, T]. destruct (RD w x T) as [I|I]; [left; apply without_In; split; [exact I|apply NX; [reflexivity|lia]]|right; exact I].
      * injection ER as <- <-. split; [exact U|]. intros v x T. apply UR in T as (T & _). apply RD, T.
    + exfalso. cbn [r_step] in ER. destruct (mem fd (g w)) eqn:M; [|discriminate]. destruct (shared g w fd) eqn:SH; [|discriminate]. unfold shared in SH. destruct (partner w) as [v|] eqn:P; [|discriminate]. apply mem_In in M, SH. apply (AP w v fd fd fd P (U _ _ M) (U _ _ M) (U _ _ SH)). lia.
  - destruct (close_ok m g fd closed V) as (m' & rc & E1 & _ & V1). exists m', (Seen rc None). eexists _, _. split; [cbn [mux_step]; rewrite E1; reflexivity|]. split; [reflexivity|]. split; [exact V1|]. split; [intros v x I; apply without_In in I as (I & _); apply U, I|].
    unfold mux_close in E1. destruct (unregister_raw m g ACCEPT fd (proj1 V)) as (m1 & r1 & F1 & C1 & S1 & _). rewrite F1 in E1. cbn [bind] in E1.
    destruct (unregister_raw m1 _ READ fd S1) as (m2 & r2 & F2 & C2 & S2 & _). rewrite F2 in E1. cbn [bind] in E1.
    destruct (unregister_raw m2 _ WRITE fd S2) as (m3 & r3 & F3 & C3 & S3 & _). rewrite F3 in E1. cbn [bind] in E1.
    destruct (unregister_raw m3 _ URGENT fd S3) as (m4 & r4 & F4 & C4 & S4 & _). rewrite F4 in E1. cbn [bind] in E1.
    destruct (unregister_raw m4 _ INTERRUPT fd S4) as (m5 & r5 & F5 & C5 & S5 & _). rewrite F5 in E1. cbn [bind] in E1. injection E1 as <- _.
    change (update g ACCEPT (without fd (g ACCEPT)) READ) with (g READ) in C2. match type of C3 with _ = if mem fd ?l then _ else _ => change l with (g WRITE) in C3 end. match type of C4 with _ = if mem fd ?l then _ else _ => change l with (g URGENT) in C4 end. match type of C5 with _ = if mem fd ?l then _ else _ => change l with (g INTERRUPT) in C5 end.
    intros v x T. apply (unregister_ready _ _ _ _ _ F5) in T as (T & N5). apply (unregister_ready _ _ _ _ _ F4) in T as (T & N4). apply (unregister_ready _ _ _ _ _ F3) in T as (T & N3). apply (unregister_ready _ _ _ _ _ F2) in T as (T & N2). apply (unregister_ready _ _ _ _ _ F1) in T as (T & N1).
    destruct (RD v x T) as [I|I]; [left|right; exact I]. apply without_In. split; [exact I|]. intros ->. pose proof (proj1 (proj2 (proj1 V v)) fd I) as F. apply mem_In in I.
    destruct v; [rewrite I in C2; apply (N2 eq_refl); lia|rewrite I in C3; apply (N3 eq_refl); lia|rewrite I in C1; apply (N1 eq_refl); lia|rewrite I in C4; apply (N4 eq_refl); lia|rewrite I in C5; apply (N5 eq_refl); lia].
  - destruct (wait_ok m g pselect ticks V) as (m' & s & E & _ & V1). exists m', s, g, (Waits g ticks). split; [exact E|]. split; [reflexivity|]. split; [exact V1|]. split; [exact U|].
    cbn [mux_step] in E. unfold mux_wait in E. destruct ((mux_nfds m >? 0) || negb (ticks =? 0)); [|injection E as <- <-; exact RD]. injection E as <- _.
    set (c := Call _ _ _ _). destruct (OK c) as (O1 & O2 & O3). pose proof V as (S & RA & UI).
    assert (REP : forall w x, Z.testbit (reported (pselect c) w) x = true -> In x (g w) \/ exists v, partner w = Some v /\ used v x).
    { intros w x T. destruct (Z_lt_dec x 0); [rewrite Z.testbit_neg_r in T by lia; discriminate|].
      destruct w; cbn [reported partner] in *.
      - apply O1, RA in T; [|lia]. destruct T as [T|T]; [left; exact T|right; exists ACCEPT; split; [reflexivity|apply U, T]].
      - apply O2 in T. left. apply (proj1 (S WRITE)); [lia|exact T].
      - apply O1, RA in T; [|lia]. destruct T as [T|T]; [right; exists READ; split; [reflexivity|apply U, T]|left; exact T].
      - apply O3, UI in T; [|lia]. destruct T as [T|T]; [left; exact T|right; exists INTERRUPT; split; [reflexivity|apply U, T]].
      - apply O3, UI in T; [|lia]. destruct T as [T|T]; [right; exists URGENT; split; [reflexivity|apply U, T]|left; exact T]. }
    assert (RST : forall s, ready (set_reset s) = ready s) by (intros s0; unfold set_reset; destruct (next s0 >=? 0); [reflexivity|]; destruct (max s0 <? 0); reflexivity).
    intros w x T. destruct (a_rc (pselect c) >? 0); cbn [sets] in T.
    + rewrite RST in T. apply REP. destruct w; exact T.
    + rewrite sets_with in T. destruct (which_eqb_spec w WRITE) as [->|]; [apply REP; exact T|apply RD; exact T].
  - destruct (tame_ready used m g w AP TM) as (m' & s & E & TM'). exists m', s, g, Anything. split; [exact E|]. split; [reflexivity|exact TM'].
  - cbn [mux_step r_step]. unfold register_signal. destruct (negb (valid_signal sg)); [|destruct (Z.testbit (mask m) sg)]; eexists _, _, g, Anything; (split; [reflexivity|]); (split; [reflexivity|exact TM]).
  - cbn [mux_step r_step]. unfold unregister_signal. destruct (negb (valid_signal sg)); [|destruct (negb (Z.testbit (mask m) sg))]; eexists _, _, g, Anything; (split; [reflexivity|]); (split; [reflexivity|exact TM]).
Qed.
Lemma tame_run (used : which -> Z -> Prop) : (forall w v lo fd hi, partner w = Some v -> used w lo -> used w hi -> used v fd -> ~ (lo <= fd <= hi)) -> forall ops m g,
  (forall w fd, In (Register w fd) ops -> used w fd) -> (forall pselect ticks, In (Wait pselect ticks) ops -> forall c, conforms c (pselect c)) -> tame used m g ->
  exists m' ss g' es, mux_run m ops = Some (m', ss) /\ r_run g ops = Some (g', es).
Proof.
  intros AP. induction ops as [|o ops IH]; intros m g U C TM; [exists m, [], g, []; split; reflexivity|].
  destruct (tame_step used m g o AP) as (m1 & s & g1 & e & E1 & E2 & TM1); [destruct o; auto; [apply U; left; reflexivity|eapply C; left; reflexivity]|exact TM|].
  destruct (IH m1 g1) as (m2 & ss & g2 & es & E3 & E4); [intros w fd I; apply U; right; exact I|intros p t I; apply (C p t); right; exact I|exact TM1|].
  exists m2, (s :: ss), g2, (e :: es). cbn [mux_run r_run]. rewrite E1, E2. cbn [bind]. rewrite E3, E4. split; reflexivity.
Qed.
Lemma disciplined_ok mask ops : disciplined ops -> exists m ss g es, mux_run (mux_init mask) ops = Some (m, ss) /\ r_run nothing ops = Some (g, es).
Proof.
  intros (D1 & D2). apply (tame_run (fun w fd => In (Register w fd) ops)); [exact D1|auto|exact D2|]. split; [apply minv_init|]. split; [intros w fd []|]. intros w x T. cbn in T. rewrite Z.bits_0 in T. discriminate.
Qed.
