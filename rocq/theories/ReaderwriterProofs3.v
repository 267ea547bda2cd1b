(** Proofs about the reader writer locks: every step. *)

From Coq Require Import ZArith List Bool Lia.
From Verif Require Import CInt CUtil ReaderwriterModel ReaderwriterSpec ReaderwriterProofs ReaderwriterProofs2.
Import ListNotations.
Local Open Scope Z_scope.

(** * Beginning without waiting *)

Lemma free_inv tr s t r rd wr : inv tr s -> waits s t = None -> rw_role r -> pending tr = [] ->
  rd = reading s + (if role_eqb READER r then 1 else 0) -> wr = writing s + (if role_eqb WRITER r then 1 else 0) ->
  (wr = 0 \/ (wr = 1 /\ rd = 0)) -> rd <= LIMIT -> inv (tr ++ [Begun t r 0]) (with_reading rd (with_writing wr s)).
Proof.
  intros V W RW PN RD WR X LI. destruct (none_out tr s t V W) as (N1 & N2). destruct (trace_ok tr t r RW) as (T1 & T2).
  assert (P : pending (tr ++ [Begun t r 0]) = pending tr) by (rewrite pending_app; apply without_no, N1).
  assert (G : granted (tr ++ [Begun t r 0]) = granted tr) by (rewrite granted_app; apply without_no, N2).
  assert (K : peak (tr ++ [Begun t r 0]) = peak tr) by (apply (peak_quiet tr s); [exact V|exact Logic.I|cbn [note_pending]; rewrite without_no by exact N1; lia]).
  destruct V as [V1 V2 V3 V4 V5 V6 V7 V8 V9 V10 V11]. constructor; rewrite ?P, ?G, ?T1, ?T2, ?K; cbn [queue data waiting maximum reading writing waits with_reading with_writing]; auto.
  - rewrite app_length, RD, V7. destruct (role_eqb READER r); cbn [length]; lia.
  - rewrite app_length, WR, V8. destruct (role_eqb WRITER r); cbn [length]; lia.
  - congruence.
  - rewrite PN. cbn [length]. lia.
Qed.

Lemma waiting_ok tr s : inv tr s -> waiting s = Z.of_nat (length (pending tr)).
Proof. intros V. apply (V_queue _ _ V). Qed.
Lemma audit_ok tr s : inv tr s -> audit_if s = Some tt.
Proof. intros V. destruct (nonneg _ _ V). apply (audit_if_ok s (pending tr)); [apply V|assumption|assumption|apply V]. Qed.
Lemma rd_eta v s : with_reading v s = with_reading v (with_writing (writing s) s).
Proof. destruct s. reflexivity. Qed.
Lemma wr_eta v s : with_writing v s = with_reading (reading s) (with_writing v s).
Proof. destruct s. reflexivity. Qed.

Lemma begun_fail tr s t r v : inv tr s -> v < 0 -> begun s t r v = Some (s, [Begun t r v]).
Proof.
  intros V N. unfold begun. rewrite (audit_ok tr s V). cbn [bind]. destruct (Z.ltb_spec v 0); [|lia]. rewrite !orb_true_r. destruct (role_eqb r READER); reflexivity.
Qed.
Lemma begun_ok tr s t r : inv tr s -> (if role_eqb r READER then 0 < reading s /\ writing s = 0 else reading s = 0 /\ writing s = 1) -> begun s t r 0 = Some (s, [Begun t r 0]).
Proof.
  intros V N. unfold begun. rewrite (audit_ok tr s V). cbn [bind]. pose proof (waiting_ok _ _ V) as W. destruct (role_eqb r READER); destruct N as (A & B).
  - rewrite B. destruct (Z.ltb_spec 0 (reading s)); [|lia]. destruct (Z.leb_spec 0 (waiting s)); [|lia]. reflexivity.
  - rewrite A, B. destruct (Z.leb_spec 0 (waiting s)); [|lia]. reflexivity.
Qed.

Definition quiet (es : list event) : Prop := forall t r, ~ In (Grants t r) es.

(** What a call to begin does. *)
Definition begin_spec (tr : list event) (s : rw) (t : Z) (r : role) (to : timeout) (priority node : bool) (s' : rw) (es : list event) : Prop :=
  (es = [Begun t r 0] /\ node = true /\ pending tr = []) \/
  (exists v, v <> 0 /\ es = [Begun t r v] /\ s' = s /\ (node = false \/ to = POLL)) \/
  (es = [Waits t r priority] /\ node = true /\ (to = INFINITY \/ to = TICKS true)) \/
  (exists v, v <> 0 /\ es = [Waits t r priority; Begun t r v] /\ node = true /\ to = TICKS false).

Lemma length_counts tr s : inv tr s -> count READER (granted tr) + count WRITER (granted tr) = Z.of_nat (length (granted tr)).
Proof.
  intros V. assert (H : forall t r, In (t, r) (granted tr) -> rw_role r) by (intros t r I; apply (V_grant _ _ V t r I)).
  clear V. induction (granted tr) as [|(t & r) l IH]; [reflexivity|]. rewrite !count_cons. cbn [length]. specialize (IH (fun t r I => H t r (or_intror I))).
  destruct (H t r (or_introl eq_refl)) as [->| ->]; cbn [role_eqb]; lia.
Qed.

Lemma begin_ok tr s t r to pr node : inv tr s -> permitted tr s (Begin t r to pr node) ->
  exists s' es, begin s t r to pr node = Some (s', es) /\ inv (tr ++ es) s' /\ quiet es /\ begin_spec tr s t r to pr node s' es.
Proof.
  intros V (RW & W & LI). pose proof (nonneg _ _ V) as (R0 & W0). pose proof (length_counts _ _ V) as LC. pose proof (count_nonneg WRITER (granted tr)).
  assert (LI2 : reading s + Z.of_nat (length (pending tr)) < LIMIT) by (rewrite (V_reading _ _ V); lia).
  unfold begin. destruct node; cbn [negb].
  2: { exists s, [Begun t r (-1)]. split; [reflexivity|]. split; [apply fail_inv; [exact V|exact W|lia]|]. split; [intros x y [X|[]]; discriminate|]. right. left. exists (-1). split; [lia|]. auto. }
  rewrite (head_ok s (pending tr) (V_queue _ _ V)). cbn [bind].
  assert (WAIT : 0 < reading s + writing s ->
    exists s' es, match to with
      | POLL => begun s t r (-1)
      | INFINITY | TICKS true =>
        let* s := enqueue (dataset s t r) t pr in Some (with_waits (set (waits s) t (Some (r, false))) s, [Waits t r pr])
      | TICKS false =>
        let* s := enqueue (dataset s t r) t pr in
        let* '(s, rc) := scheduled s t 5 in
        let* '(s, l) := begun s t r (if rc =? 0 then 0 else -1) in
        Some (s, Waits t r pr :: l)
      end = Some (s', es) /\ inv (tr ++ es) s' /\ quiet es /\ begin_spec tr s t r to pr true s' es).
  { intros BUSY. destruct (none_out tr s t V W) as (N1 & N2).
    destruct (enqueue_ok s t r pr (pending tr) (V_queue _ _ V) N1 RW ltac:(lia)) as (s2 & E2 & M & D & MX & R & WR & DB & WT).
    pose proof (wait_inv tr s t r pr s2 V W RW BUSY LI2 E2) as V2.
    assert (YES : exists s' es, (let* s := enqueue (dataset s t r) t pr in Some (with_waits (set (waits s) t (Some (r, false))) s, [Waits t r pr])) = Some (s', es) /\
      inv (tr ++ es) s' /\ quiet es /\ es = [Waits t r pr]).
    { rewrite E2. cbn [bind]. eexists _, _. split; [reflexivity|]. split; [exact V2|]. split; [intros x y [X|[]]; discriminate|reflexivity]. }
    destruct to as [| |[|]].
    - exists s, [Begun t r (-1)]. split; [apply (begun_fail tr); [exact V|lia]|]. split; [apply fail_inv; [exact V|exact W|lia]|]. split; [intros x y [X|[]]; discriminate|]. right. left. exists (-1). split; [lia|]. auto.
    - destruct YES as (s' & es & A & B & C & D'). exists s', es. split; [exact A|]. split; [exact B|]. split; [exact C|]. right. right. left. auto.
    - destruct YES as (s' & es & A & B & C & D'). exists s', es. split; [exact A|]. split; [exact B|]. split; [exact C|]. right. right. left. auto.
    - rewrite E2. cbn [bind]. assert (IP : In (t, r) (pending (tr ++ [Waits t r pr]))) by (rewrite added_pending; apply added_in; auto).
      destruct (giveup_inv (tr ++ [Waits t r pr]) _ t r false (-1) V2 ltac:(cbn; apply set_same) IP ltac:(lia)) as (s3 & E3 & V3).
      assert (EQ : with_waits (set (waits (with_waits (set (waits s2) t (Some (r, false))) s2)) t None) (with_waits (set (waits s2) t (Some (r, false))) s2) =
        with_waits (set (set (waits s2) t (Some (r, false))) t None) s2) by reflexivity. rewrite EQ in E3. clear EQ.
      (* the same without the detour through [waits] *)
      assert (RWN : role_eqb (data s2 t) READABLE = false /\ role_eqb (data s2 t) WRITABLE = false) by (rewrite D, set_same; destruct RW as [->| ->]; auto).
      unfold scheduled. change (negb (5 =? 0)) with true. cbn match. rewrite (proj1 RWN), (proj2 RWN).
      destruct (dequeue_ok s2 t r (added pr t r (pending tr))) as (s4 & E4 & M4 & D4 & MX4 & R4 & WR4 & DB4 & WT4);
        [exact M|apply added_in; auto|rewrite added_length; lia|]. rewrite E4. cbn [bind]. change (5 =? 0) with false. cbn match.
      assert (V4 : inv ((tr ++ [Waits t r pr]) ++ [Begun t r (-1)]) (dataset s4 t RUNNING)).
      { unfold dequeue in E3, E4. cbn [waiting with_queue with_waits] in E3, E4. destruct (ck_s32 (waiting s2 - 1)) as [w|]; [|discriminate]. cbn [bind] in E3, E4. injection E3 as E3. injection E4 as E4.
        destruct V3 as [U1 U2 U3 U4 U5 U6 U7 U8 U9 U10 U11]. subst s3 s4.
        assert (WQ : forall x, waits s2 x = set (set (waits s2) t (Some (r, false))) t None x).
        { intros x. unfold set. destruct (Z.eqb_spec x t) as [->|]; [rewrite WT; exact W|reflexivity]. }
        constructor; auto; cbn [waits with_waiting with_queue with_waits dataset with_data data] in *; intros x y; rewrite ?WQ; try apply U2; try apply U3; try apply U5. }
      rewrite (begun_fail _ _ t r (-1) V4) by lia. cbn [bind]. eexists _, _. split; [reflexivity|]. rewrite <- app_assoc in V4. split; [exact V4|].
      split; [intros x y [X|[X|[]]]; discriminate|]. right. right. right. exists (-1). split; [lia|]. auto. }
  destruct RW as [->| ->]; cbn [role_eqb].
  - destruct (Z.leb_spec (writing s) 0) as [LW|LW]; cbn [bind]; [|apply WAIT; lia].
    destruct (pending tr) as [|(x & y) P] eqn:EP; cbn [bind].
    + unfold LIMIT in LI2. cbn [length] in LI2. rewrite ck_s32_ok by lia. cbn [bind]. rewrite rd_eta.
      assert (V2 : inv (tr ++ [Begun t READER 0]) (with_reading (reading s + 1) (with_writing (writing s) s))).
      { apply free_inv; auto; [left; reflexivity|cbn; lia|lia|unfold LIMIT; lia]. }
      rewrite (begun_ok _ _ t READER V2) by (cbn; lia). eexists _, _. split; [reflexivity|]. split; [exact V2|]. split; [intros x y [X|[]]; discriminate|]. left. auto.
    + apply WAIT. apply (V_busy _ _ V). rewrite EP. discriminate.
  - destruct (Z.leb_spec (reading s) 0) as [LR|LR]; cbn [andb bind]; [|apply WAIT; lia]. destruct (Z.leb_spec (writing s) 0) as [LW|LW]; cbn [bind]; [|apply WAIT; lia].
    destruct (pending tr) as [|(x & y) P] eqn:EP; cbn [bind].
    + assert (writing s = 0) by lia. assert (reading s = 0) by lia. replace (s8 (writing s + 1)) with 1 by (rewrite H0; reflexivity). rewrite wr_eta.
      assert (V2 : inv (tr ++ [Begun t WRITER 0]) (with_reading (reading s) (with_writing 1 s))).
      { apply free_inv; auto; [right; reflexivity|cbn; lia|cbn; lia|unfold LIMIT; lia]. }
      rewrite (begun_ok _ _ t WRITER V2) by (cbn; lia). eexists _, _. split; [reflexivity|]. split; [exact V2|]. split; [intros x y [X|[]]; discriminate|]. left. auto.
    + apply WAIT. apply (V_busy _ _ V). rewrite EP. discriminate.
Qed.

(** * Waking up *)

Lemma count_in r t l : In (t, r) l -> 1 <= count r l.
Proof.
  induction l as [|(x & y) l IH]; cbn [In]; [tauto|]. rewrite count_cons. pose proof (count_nonneg r l). intros [E|E]; [injection E as -> ->; rewrite role_eqb_refl; lia|].
  specialize (IH E). destruct (role_eqb r y); lia.
Qed.

Definition wake_spec (tr : list event) (s : rw) (t rc : Z) (s' : rw) (es : list event) : Prop :=
  exists r,
  (In (t, r) (granted tr) /\ es = [Begun t r 0]) \/
  (In (t, r) (pending tr) /\ rc = 0 /\ es = []) \/
  (exists v, v <> 0 /\ In (t, r) (pending tr) /\ rc <> 0 /\ es = [Begun t r v]).

Lemma wake_ok tr s t rc : inv tr s -> permitted tr s (Wake t rc) ->
  exists s' es, wake s t rc = Some (s', es) /\ inv (tr ++ es) s' /\ quiet es /\ wake_spec tr s t rc s' es.
Proof.
  intros V W. cbn [permitted] in W. unfold wake. destruct (waits s t) as [(r & w)|] eqn:E; [|contradiction]. clear W.
  destruct (V_waits _ _ V _ _ _ E) as [I|I].
  - pose proof (pend_rw _ _ V _ _ I) as RW. assert (D : data s t = r) by (destruct (V_queue _ _ V) as (_ & D & _); apply (D t r I)).
    assert (NR : ready s t (pend r) = false) by (unfold ready; rewrite D; destruct RW as [->| ->]; reflexivity). rewrite NR. cbn [negb]. rewrite andb_true_r.
    destruct (Z.eqb_spec rc 0) as [->|NZ].
    + exists (with_waits (set (waits s) t (Some (r, false))) s), []. split; [reflexivity|]. rewrite app_nil_r. split; [apply (again_inv tr s t r w); assumption|]. split; [intros ? ? []|].
      exists r. right. left. auto.
    + destruct (giveup_inv tr s t r w (-1) V E I ltac:(lia)) as (s' & E' & V'). unfold scheduled. destruct (Z.eqb_spec rc 0); [contradiction|]. cbn [negb].
      change (data (with_waits (set (waits s) t None) s) t) with (data s t). rewrite D.
      assert (RN : role_eqb r READABLE = false /\ role_eqb r WRITABLE = false) by (destruct RW as [->| ->]; auto). rewrite (proj1 RN), (proj2 RN), E'. cbn [bind].
      destruct (Z.eqb_spec rc 0); [contradiction|]. rewrite (begun_fail _ _ t r (-1) V') by lia. eexists _, _. split; [reflexivity|]. split; [exact V'|]. split; [intros x y [X|[]]; discriminate|].
      exists r. right. right. exists (-1). split; [lia|]. auto.
  - destruct (V_grant _ _ V _ _ I) as (D & RW & _). assert (RD : ready s t (pend r) = true) by (unfold ready; rewrite D; apply role_eqb_refl). rewrite RD. cbn [negb]. rewrite andb_false_r.
    assert (S : scheduled (with_waits (set (waits s) t None) s) t rc = Some (dataset (with_waits (set (waits s) t None) s) t RUNNING, 0)).
    { unfold scheduled. change (data (with_waits (set (waits s) t None) s) t) with (data s t). rewrite D. destruct (Z.eqb_spec rc 0) as [->|]; cbn [negb]; [reflexivity|]. destruct RW as [->| ->]; reflexivity. }
    rewrite S. cbn [bind]. change (0 =? 0) with true. cbn match. pose proof (granted_inv tr s t r w V E I) as V'.
    pose proof (V_excl _ _ V) as X. pose proof (count_in _ _ _ I) as C. pose proof (nonneg _ _ V) as (N1 & N2). pose proof (V_reading _ _ V) as VR. pose proof (V_writing _ _ V) as VW.
    rewrite (begun_ok _ _ t r V').
    2: { change (reading (dataset (with_waits (set (waits s) t None) s) t RUNNING)) with (reading s). change (writing (dataset (with_waits (set (waits s) t None) s) t RUNNING)) with (writing s).
         destruct RW as [->| ->]; cbn [role_eqb]; lia. }
    eexists _, _. split; [reflexivity|]. split; [exact V'|]. split; [intros x y [Y|[]]; discriminate|]. exists r. left. auto.
Qed.

(** * Ending *)

Lemma remove_length t l : In t l -> length l = S (length (remove_one t l)).
Proof. induction l as [|x l IH]; cbn; [tauto|]. destruct (Z.eqb_spec x t) as [->|N]; [reflexivity|]. intros [E|E]; [contradiction|]. cbn. rewrite <- IH by exact E. reflexivity. Qed.
Lemma remove_none t l : In t l -> length l = 1%nat -> remove_one t l = [].
Proof. intros I L. apply remove_length in I. destruct (remove_one t l); [reflexivity|cbn in I; lia]. Qed.
Lemma len_zero {A} (l : list A) : Z.of_nat (length l) = 0 -> l = [].
Proof. destruct l; [reflexivity|cbn [length]; lia]. Qed.

Lemma keep_inv tr s t rd : inv tr s -> In t (readers tr) -> rd = reading s - 1 -> 0 < rd -> inv (tr ++ [Ended t READER 0]) (with_reading rd s).
Proof.
  intros V I RD POS.
  assert (P : pending (tr ++ [Ended t READER 0]) = pending tr) by (rewrite pending_app; reflexivity).
  assert (G : granted (tr ++ [Ended t READER 0]) = granted tr) by (rewrite granted_app; reflexivity).
  assert (T1 : readers (tr ++ [Ended t READER 0]) = remove_one t (readers tr)) by (rewrite readers_app; reflexivity).
  assert (T2 : writers (tr ++ [Ended t READER 0]) = writers tr) by (rewrite writers_app; reflexivity).
  assert (K : peak (tr ++ [Ended t READER 0]) = peak tr) by (apply (peak_quiet tr s); [exact V|exact Logic.I|cbn [note_pending]; lia]).
  apply remove_length in I.
  destruct V as [V1 V2 V3 V4 V5 V6 V7 V8 V9 V10 V11]. constructor; rewrite ?P, ?G, ?T1, ?T2, ?K; cbn [queue data waiting maximum reading writing waits with_reading]; auto; lia.
Qed.

Lemma resume_inv tr s s0 t r : inv tr s -> rw_role r -> granted tr = [] ->
  queue s0 = queue s -> data s0 = data s -> waiting s0 = waiting s -> maximum s0 = maximum s -> waits s0 = waits s -> reading s0 = 0 -> writing s0 = 0 ->
  fold_left note_reader [Ended t r 0] (readers tr) = [] -> fold_left note_writer [Ended t r 0] (writers tr) = [] ->
  exists s' res, resume s0 ANY = Some (s', res, map grant (next_batch (pending tr))) /\ (res = NONE \/ res = READER \/ res = WRITER) /\
    inv (tr ++ map grant (next_batch (pending tr)) ++ [Ended t r 0]) s' /\ end_contract s' = true.
Proof.
  intros V RW GE Q D W MX WT R0 W0 RE WE. set (P := pending tr) in *. pose proof (V_limit _ _ V) as LI. pose proof (nonneg _ _ V) as (N1 & N2). fold P in LI.
  assert (M : matches s0 P). { destruct (V_queue _ _ V) as (A & B & C & E). unfold matches. rewrite Q, D, W. auto. }
  destruct (resume_ok s0 P M R0 W0 ltac:(lia)) as (s' & res & E & RES & M' & D1 & D2 & R' & W' & MX' & DB' & Wn & Ws & Wg).
  exists s', res. split; [exact E|]. split; [exact RES|].
  pose proof (batch_split P) as BS. pose proof (nodup_pend _ _ V) as ND. fold P in ND.
  set (B := next_batch P) in *. set (L := later P) in *. set (es := map grant B ++ [Ended t r 0]).
  assert (NDB : NoDup (map fst (B ++ L))) by (rewrite <- BS; exact ND).
  assert (PE : pending (tr ++ es) = L).
  { unfold es. rewrite pending_app, fold_left_app. fold P. rewrite BS at 1. rewrite pend_grants by exact NDB. reflexivity. }
  assert (GR : granted (tr ++ es) = rev B).
  { unfold es. rewrite granted_app, fold_left_app, GE, grant_grants, app_nil_r. reflexivity. }
  assert (T1 : readers (tr ++ es) = []) by (unfold es; rewrite readers_app, fold_left_app, read_grants; exact RE).
  assert (T2 : writers (tr ++ es) = []) by (unfold es; rewrite writers_app, fold_left_app, write_grants; exact WE).
  destruct (V_max _ _ V) as (MXA & MXB). pose proof (waiting_ok _ _ V) as WOK. fold P in WOK.
  assert (PL : length P = (length B + length L)%nat) by (rewrite BS, app_length; reflexivity).
  assert (K : peak (tr ++ es) = peak tr).
  { unfold es. rewrite peak_app, fold_left_app. fold P.
    assert (X1 := peak_grants B P (peak tr) ltac:(lia)). assert (X2 := peak_pending (map grant B) P (peak tr)).
    rewrite BS in X2 at 2. rewrite pend_grants in X2 by exact NDB. rewrite (surjective_pairing (fold_left note_peak (map grant B) (P, peak tr))), X1, X2.
    cbn [fold_left]. unfold note_peak. cbn [note_pending fst snd]. lia. }
  assert (RWP : forall t r, In (t, r) P -> rw_role r) by (intros; eapply pend_rw; eauto).
  destruct (batch_counts P RWP) as (BC1 & BC2). fold B in BC1, BC2.
  assert (INB : forall x y, In (x, y) B -> In (x, y) P) by (intros; rewrite BS; apply in_or_app; auto).
  assert (INL : forall x y, In (x, y) L -> In (x, y) P) by (intros; rewrite BS; apply in_or_app; auto).
  assert (V' : inv (tr ++ es) s').
  { constructor; rewrite ?PE, ?GR, ?T1, ?T2, ?K, ?count_rev; cbn [length].
    - exact M'.
    - intros x y I. destruct (V_pend _ _ V x y (INL _ _ I)) as (w & H). rewrite <- WT in H. destruct (Ws _ _ _ H) as (w' & H' & _). eauto.
    - intros x y I. apply in_rev in I. split; [apply D1, I|]. split; [eapply RWP, INB, I|]. destruct (V_pend _ _ V x y (INB _ _ I)) as (w & H). rewrite <- WT in H. eapply Wg; eauto.
    - rewrite map_app, map_rev. rewrite map_app in NDB. apply nodup_both in NDB as (A1 & A2 & A3). clear - A1 A2 A3. induction (map fst L) as [|z l IH]; [apply NoDup_rev, A1|].
      apply NoDup_cons_iff in A2 as (B1 & B2). cbn [app]. constructor; [rewrite in_app_iff, <- in_rev; intros [X|X]; [tauto|exact (A3 z X (or_introl eq_refl))]|]. apply IH; [exact B2|]. intros x X Y. apply (A3 x X). right. exact Y.
    - intros x y w H. destruct (waits s x) as [(y' & w')|] eqn:EX.
      + rewrite <- WT in EX. destruct (Ws _ _ _ EX) as (w2 & H2 & _). rewrite WT in EX. destruct (V_waits _ _ V _ _ _ EX) as [I|I]; [|rewrite GE in I; destruct I].
        assert (y' = y) by congruence. subst y'. fold P in I. rewrite BS in I. apply in_app_or in I as [I|I]; [right; apply in_rev; rewrite rev_involutive; exact I|left; exact I].
      + rewrite <- WT in EX. apply Wn in EX. congruence.
    - destruct M' as (_ & _ & _ & M4). split; [congruence|]. rewrite M4, MX', MX. lia.
    - rewrite R'. lia.
    - rewrite W'. lia.
    - rewrite R', W'. exact BC1.
    - intros NE. rewrite R', W'. assert (B <> []) by (intros X; apply NE; pose proof (later_all P RWP X) as X2; rewrite X2 in BS; symmetry in BS; apply app_eq_nil in BS; tauto).
      destruct B; [contradiction|]. cbn [length] in BC2. lia.
    - rewrite R'. lia. }
  split; [exact V'|]. pose proof (waiting_ok _ _ V') as WK. rewrite PE in WK. unfold end_contract. pose proof (count_nonneg READER B). pose proof (count_nonneg WRITER B).
  rewrite R', W', WK. destruct BC1 as [X|(X & Y)].
  - rewrite X. destruct (Z.ltb_spec 0 (count READER B)) as [C|C].
    + destruct (Z.leb_spec 0 (Z.of_nat (length L))); [|lia]. reflexivity.
    + assert (C0 : count READER B = 0) by lia. rewrite C0. assert (BN : B = []) by (apply len_zero; lia). pose proof (later_all P RWP BN) as PN.
      assert (LN : L = []) by (destruct L; [reflexivity|rewrite PN in PL; cbn [length] in PL; lia]). rewrite LN. reflexivity.
  - rewrite X, Y. destruct (Z.leb_spec 0 (Z.of_nat (length L))); [|lia]. reflexivity.
Qed.

(** Whether the thread that ends is the last one to have the lock. *)
Definition last_one (tr : list event) : bool := (length (readers tr) + length (writers tr) + length (granted tr) =? 1)%nat.

Lemma end_ok tr s t r : inv tr s -> permitted tr s (End t r) ->
  exists s', step s (End t r) = Some (s', (if last_one tr then map grant (next_batch (pending tr)) else []) ++ [Ended t r 0]) /\
    inv (tr ++ (if last_one tr then map grant (next_batch (pending tr)) else []) ++ [Ended t r 0]) s'.
Proof.
  intros V (W & RO). pose proof (nonneg _ _ V) as (N1 & N2). pose proof (V_reading _ _ V) as VR. pose proof (V_writing _ _ V) as VW. pose proof (V_excl _ _ V) as VX.
  pose proof (length_counts _ _ V) as LC. pose proof (count_nonneg READER (granted tr)) as C1. pose proof (count_nonneg WRITER (granted tr)) as C2. pose proof (V_limit _ _ V) as LI.
  unfold LIMIT in LI. cbn [step]. destruct RO as [(-> & I)|(-> & I)]; cbn [role_eqb]; pose proof (remove_length _ _ I) as RL.
  - assert (R1 : 1 <= reading s) by lia. assert (WZ : writing s = 0) by lia.
    assert (WE : writers tr = []) by (apply len_zero; lia). unfold reader_end. destruct (Z.ltb_spec 0 (reading s)); [|lia]. rewrite WZ. change (0 =? 0) with true. cbn [andb contract bind].
    rewrite ck_s32_ok by lia. cbn [bind reading with_reading]. destruct (Z.ltb_spec 0 (reading s - 1)) as [MORE|LAST].
    + assert (LO : last_one tr = false). { unfold last_one. rewrite WE. cbn [length]. apply Nat.eqb_neq. lia. } rewrite LO. cbn [app bind].
      pose proof (keep_inv tr s t _ V I eq_refl MORE) as V'. rewrite (audit_ok _ _ V'). cbn [bind].
      assert (EC : end_contract (with_reading (reading s - 1) s) = true).
      { unfold end_contract. cbn [reading writing waiting with_reading]. rewrite WZ, (waiting_ok _ _ V). destruct (Z.ltb_spec 0 (reading s - 1)); [|lia].
        destruct (Z.leb_spec 0 (Z.of_nat (length (pending tr)))); [|lia]. reflexivity. }
      rewrite EC. cbn [contract bind]. eexists. split; [reflexivity|exact V'].
    + assert (GE : granted tr = []) by (apply len_zero; lia).
      assert (LO : last_one tr = true). { unfold last_one. rewrite WE, GE. cbn [length]. apply Nat.eqb_eq. rewrite GE in *. cbn in *. lia. } rewrite LO.
      destruct (resume_inv tr s (with_reading (reading s - 1) s) t READER V (or_introl eq_refl) GE) as (s' & res & E & RES & V' & EC); auto; [cbn; lia|cbn; apply remove_none; [exact I|lia]|].
      rewrite E. cbn [bind].
      assert (RZ : (if role_eqb res NONE then 0 else if role_eqb res READER then 0 else if role_eqb res WRITER then 0 else -1) = 0) by (destruct RES as [->|[->| ->]]; reflexivity).
      rewrite RZ, (audit_ok _ _ V'), EC. cbn [bind contract]. eexists. split; [reflexivity|exact V'].
  - assert (WZ : writing s = 1) by lia. assert (RZ : reading s = 0) by lia. assert (RE : readers tr = []) by (apply len_zero; lia). assert (GE : granted tr = []) by (apply len_zero; lia).
    assert (LO : last_one tr = true). { unfold last_one. rewrite RE, GE. cbn [length]. apply Nat.eqb_eq. rewrite GE in *. cbn in *. lia. } rewrite LO.
    unfold writer_end. rewrite RZ, WZ. change ((0 =? 0) && (1 =? 1)) with true. cbn [contract bind]. change (s8 (1 - 1)) with 0.
    destruct (resume_inv tr s (with_writing 0 s) t WRITER V (or_intror eq_refl) GE) as (s' & res & E & RES & V' & EC); auto.
    { cbn [fold_left note_writer]. apply remove_none; [exact I|]. rewrite GE in *. cbn in *. lia. }
    rewrite E. cbn [bind].
    assert (RZ' : (if role_eqb res NONE then 0 else if role_eqb res READER then 0 else if role_eqb res WRITER then 0 else -1) = 0) by (destruct RES as [->|[->| ->]]; reflexivity).
    rewrite RZ', (audit_ok _ _ V'), EC. cbn [bind contract]. eexists. split; [reflexivity|exact V'].
Qed.

(** * The rest *)

Lemma debug_ok tr s v : inv tr s -> exists s' d, debug s v = Some (s', [Debugged d]) /\ inv (tr ++ [Debugged d]) s'.
Proof.
  intros V. eexists _, _. split; [reflexivity|].
  assert (P : forall d, pending (tr ++ [Debugged d]) = pending tr) by (intros; rewrite pending_app; reflexivity).
  assert (G : forall d, granted (tr ++ [Debugged d]) = granted tr) by (intros; rewrite granted_app; reflexivity).
  assert (T1 : forall d, readers (tr ++ [Debugged d]) = readers tr) by (intros; rewrite readers_app; reflexivity).
  assert (T2 : forall d, writers (tr ++ [Debugged d]) = writers tr) by (intros; rewrite writers_app; reflexivity).
  assert (K : forall d, peak (tr ++ [Debugged d]) = peak tr) by (intros; apply (peak_quiet tr s); [exact V|exact Logic.I|cbn [note_pending]; lia]).
  destruct V as [V1 V2 V3 V4 V5 V6 V7 V8 V9 V10 V11]. constructor; rewrite ?P, ?G, ?T1, ?T2, ?K; auto.
Qed.

Lemma maximum_ok tr s : inv tr s -> exists s', take_maximum s = Some (s', [Maximal (peak tr)]) /\ inv (tr ++ [Maximal (peak tr)]) s'.
Proof.
  intros V. unfold take_maximum. rewrite (proj1 (V_max _ _ V)). eexists. split; [reflexivity|]. generalize (peak tr). intros d.
  assert (P : pending (tr ++ [Maximal d]) = pending tr) by (intros; rewrite pending_app; reflexivity).
  assert (G : granted (tr ++ [Maximal d]) = granted tr) by (intros; rewrite granted_app; reflexivity).
  assert (T1 : readers (tr ++ [Maximal d]) = readers tr) by (intros; rewrite readers_app; reflexivity).
  assert (T2 : writers (tr ++ [Maximal d]) = writers tr) by (intros; rewrite writers_app; reflexivity).
  assert (K : peak (tr ++ [Maximal d]) = Z.of_nat (length (pending tr))) by (rewrite peak_app; reflexivity).
  pose proof (waiting_ok _ _ V) as WK.
  destruct V as [V1 V2 V3 V4 V5 V6 V7 V8 V9 V10 V11]. constructor; rewrite ?P, ?G, ?T1, ?T2, ?K; auto. cbn. lia.
Qed.

Definition act_spec (tr : list event) (s : rw) (a : act) (s' : rw) (es : list event) : Prop :=
  match a with
  | Begin t r to priority node => quiet es /\ begin_spec tr s t r to priority node s' es
  | Wake t rc => quiet es /\ wake_spec tr s t rc s' es
  | End t r => es = (if last_one tr then map grant (next_batch (pending tr)) else []) ++ [Ended t r 0]
  | Debug _ => exists d, es = [Debugged d]
  | Maximum => es = [Maximal (peak tr)]
  end.

Lemma step_ok tr s a : inv tr s -> permitted tr s a -> exists s' es, step s a = Some (s', es) /\ inv (tr ++ es) s' /\ act_spec tr s a s' es.
Proof.
  intros V P. destruct a as [t r to pr node|t rc|t r|v|].
  - destruct (begin_ok tr s t r to pr node V P) as (s' & es & A & B & C & D). exists s', es. cbn. auto.
  - destruct (wake_ok tr s t rc V P) as (s' & es & A & B & C & D). exists s', es. cbn. auto.
  - destruct (end_ok tr s t r V P) as (s' & A & B). eexists s', _. split; [exact A|]. split; [exact B|reflexivity].
  - destruct (debug_ok tr s v V) as (s' & d & A & B). eexists s', _. split; [exact A|]. split; [exact B|]. exists d. reflexivity.
  - destruct (maximum_ok tr s V) as (s' & A & B). eexists s', _. split; [exact A|]. split; [exact B|reflexivity].
Qed.

Lemma exec_inv tr0 s0 : inv tr0 s0 -> forall l tr s, exec tr0 s0 l tr s -> inv tr s.
Proof.
  intros V0. induction 1 as [|l tr s a s' es X IH P E]; [exact V0|]. destruct (step_ok tr s a IH P) as (s2 & es2 & E2 & V2 & _). congruence.
Qed.
Lemma run_inv tr s : run tr s -> inv tr s.
Proof. intros (l & X). exact (exec_inv [] init init_inv l tr s X). Qed.
