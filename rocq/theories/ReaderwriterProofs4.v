(** Proofs about the reader writer locks: order and progress. *)

From Coq Require Import ZArith List Bool Lia.
From Verif Require Import CInt CUtil ReaderwriterModel ReaderwriterSpec ReaderwriterProofs ReaderwriterProofs2 ReaderwriterProofs3.
Import ListNotations.
Local Open Scope Z_scope.

(** * Every event *)

Definition event_spec (pre : list event) (e : event) : Prop :=
  match e with
  | Waits t _ _ => ~ In t (map fst (pending pre)) /\ ~ In t (map fst (granted pre))
  | Grants t r => exists rest, pending pre = (t, r) :: rest
  | Begun t r 0 => pending pre = [] \/ In (t, r) (granted pre)
  | Maximal v => v = peak pre
  | Ended _ _ v => v = 0
  | _ => True
  end.

Fixpoint events_ok (pre es : list event) : Prop :=
  match es with [] => True | e :: es' => event_spec pre e /\ events_ok (pre ++ [e]) es' end.

Lemma events_app : forall a b pre, events_ok pre (a ++ b) <-> events_ok pre a /\ events_ok (pre ++ a) b.
Proof.
  induction a as [|e a IH]; intros b pre; cbn; [rewrite app_nil_r; tauto|]. rewrite IH, <- app_assoc. cbn. tauto.
Qed.
Lemma grants_ok : forall B L pre, pending pre = B ++ L -> NoDup (map fst (B ++ L)) -> events_ok pre (map grant B).
Proof.
  induction B as [|(t & r) B IH]; intros L pre P ND; cbn [map events_ok grant fst snd]; [exact I|]. split; [exists (B ++ L); exact P|].
  cbn [map fst app] in ND. apply NoDup_cons_iff in ND as (N & ND). apply (IH L); [|exact ND]. rewrite pending_app, P. cbn. rewrite Z.eqb_refl. cbn. apply without_no, N.
Qed.

Lemma step_events tr s a s' es : inv tr s -> permitted tr s a -> step s a = Some (s', es) -> events_ok tr es.
Proof.
  intros V P E. destruct (step_ok tr s a V P) as (s2 & es2 & E2 & V2 & A). rewrite E in E2. injection E2 as <- <-.
  destruct a as [t r to pr node|t rc|t r|v|]; cbn [act_spec] in A.
  - destruct A as (_ & A). destruct P as (RW & W & _). destruct (none_out tr s t V W) as (N1 & N2). destruct A as [(-> & _ & PN)|[(v & NZ & -> & _)|[(-> & _)|(v & NZ & -> & _)]]]; cbn [events_ok event_spec].
    + auto.
    + destruct v; [contradiction| |]; auto.
    + auto.
    + destruct v; [contradiction| |]; auto.
  - destruct A as (_ & r & [(I & ->)|[(_ & _ & ->)|(v & NZ & _ & _ & ->)]]); cbn [events_ok event_spec]; auto. destruct v; [contradiction| |]; auto.
  - rewrite A. destruct (last_one tr); cbn [app]; [|cbn; auto]. apply events_app. split; [|cbn; auto].
    apply (grants_ok _ (later (pending tr))); [apply batch_split|rewrite <- batch_split; apply (nodup_pend _ _ V)].
  - destruct A as (d & ->). cbn. auto.
  - rewrite A. cbn. auto.
Qed.

Lemma run_events l tr s : exec [] init l tr s -> events_ok [] tr.
Proof.
  induction 1 as [|l tr s a s' es X IH P E]; [exact I|]. apply events_app. split; [exact IH|]. eapply step_events; [|exact P|exact E].
  eapply exec_inv; [exact init_inv|exact X].
Qed.
Lemma event_ok tr s pre e suf : run tr s -> tr = pre ++ e :: suf -> event_spec pre e.
Proof. intros (l & X) ->. apply run_events in X. apply events_app in X as (_ & X). cbn [app] in X. apply X. Qed.

(** * Order *)

Definition silent (t : Z) (es : list event) : Prop := forall e, In e es -> (forall r, e <> Grants t r) /\ (forall r v, e <> Begun t r v).
Definition plain (es : list event) : Prop := forall t r, ~ In (Waits t r true) es.

Lemma stays_front t : forall es P X Y, P = X ++ Y -> In t (map fst X) -> silent t es -> plain es ->
  exists X' Y', fold_left note_pending es P = X' ++ Y' /\ In t (map fst X') /\ (forall x, In x X' -> In x X).
Proof.
  induction es as [|e es IH]; intros P X Y -> I SI PL; [exists X, Y; auto|].
  assert (SI' : silent t es) by (intros x H; apply SI; right; exact H). assert (PL' : plain es) by (intros x y H; apply (PL x y); right; exact H).
  assert (W : forall u, u <> t -> exists X' Y', fold_left note_pending es (without u (X ++ Y)) = X' ++ Y' /\ In t (map fst X') /\ (forall x, In x X' -> In x X)).
  { intros u NE. unfold without. rewrite filter_app. fold (without u X) (without u Y).
    assert (I' : In t (map fst (without u X))) by (rewrite without_fst; apply filter_In; split; [exact I|]; destruct (Z.eqb_spec t u); [congruence|reflexivity]).
    destruct (IH _ (without u X) (without u Y) eq_refl I' SI' PL') as (X' & Y' & E & I2 & S). exists X', Y'. split; [exact E|]. split; [exact I2|].
    intros (x & y) H. apply S in H. apply without_in in H. tauto. }
  cbn [fold_left note_pending]. destruct e as [u r [|]|u r|u r v|u r v|v|v]; cbn [note_pending].
  - exfalso. apply (PL u r). left. reflexivity.
  - destruct (IH _ X (Y ++ [(u, r)]) (eq_sym (app_assoc X Y _)) I SI' PL') as (X' & Y' & E & I2 & S). exists X', Y'. auto.
  - apply W. intros ->. destruct (SI (Grants t r)) as (H & _); [left; reflexivity|]. exact (H r eq_refl).
  - apply W. intros ->. destruct (SI (Begun t r v)) as (_ & H); [left; reflexivity|]. exact (H r v eq_refl).
  - eauto.
  - eauto.
  - eauto.
Qed.

Lemma silent_app t a b : silent t (a ++ b) <-> silent t a /\ silent t b.
Proof. unfold silent. split; [intros H; split; intros e I; apply H, in_or_app; auto|]. intros (A & B) e I. apply in_app_or in I as [I|I]; auto. Qed.
Lemma silent_dec t es : silent t es \/ (exists r, In (Grants t r) es) \/ (exists r v, In (Begun t r v) es).
Proof.
  induction es as [|e es IH]; [left; intros ? []|]. destruct IH as [IH|[(r & H)|(r & v & H)]]; [|right; left; exists r; right; exact H|right; right; exists r, v; right; exact H].
  assert (OK : (forall r, e <> Grants t r) -> (forall r v, e <> Begun t r v) -> silent t (e :: es)) by (intros A B x [<-|X]; [auto|apply IH, X]).
  destruct e as [u r p|u r|u r v|u r v|v|v]; try (left; apply OK; intros; discriminate).
  - destruct (Z.eq_dec u t) as [->|N]; [right; left; exists r; left; reflexivity|left; apply OK; intros; congruence].
  - destruct (Z.eq_dec u t) as [->|N]; [right; right; exists r, v; left; reflexivity|left; apply OK; intros; congruence].
Qed.

Lemma in_order tr s a t1 r1 b t2 r2 c d : run tr s -> plain tr ->
  tr = a ++ Waits t1 r1 false :: b ++ Waits t2 r2 false :: c ++ Grants t2 r2 :: d -> t1 <> t2 ->
  (exists r, In (Grants t1 r) (b ++ c)) \/ (exists r v, In (Begun t1 r v) (b ++ c)).
Proof.
  intros R PL E NE. destruct (silent_dec t1 (b ++ c)) as [S|S]; [exfalso|exact S]. apply silent_app in S as (S1 & S2).
  assert (PB : plain b) by (intros x y H; apply (PL x y); rewrite E; apply in_or_app; right; right; apply in_or_app; auto).
  assert (PC : plain c) by (intros x y H; apply (PL x y); rewrite E; apply in_or_app; right; right; apply in_or_app; right; right; apply in_or_app; auto).
  set (p1 := a ++ [Waits t1 r1 false]). set (p2 := p1 ++ b). set (p3 := p2 ++ [Waits t2 r2 false]). set (p4 := p3 ++ c).
  assert (H2 : event_spec p2 (Waits t2 r2 false)).
  { apply (event_ok tr s p2 _ (c ++ Grants t2 r2 :: d) R). rewrite E. unfold p2, p1. rewrite <- !app_assoc. reflexivity. }
  assert (H4 : event_spec p4 (Grants t2 r2)).
  { apply (event_ok tr s p4 _ d R). rewrite E. unfold p4, p3, p2, p1. rewrite <- !app_assoc. cbn. rewrite <- ?app_assoc. cbn. reflexivity. }
  assert (Q1 : In t1 (map fst (pending p2))).
  { unfold p2, p1. rewrite pending_app. destruct (stays_front t1 b (pending (a ++ [Waits t1 r1 false])) (pending (a ++ [Waits t1 r1 false])) [] (eq_sym (app_nil_r _))) as (X' & Y' & EQ & I & _); auto.
    - rewrite pending_app. cbn. rewrite map_app. apply in_or_app. right. left. reflexivity.
    - rewrite EQ, map_app. apply in_or_app. auto. }
  destruct H2 as (N2 & _).
  assert (Q3 : pending p3 = pending p2 ++ [(t2, r2)]) by (unfold p3; rewrite pending_app; reflexivity).
  destruct (stays_front t1 c (pending p3) (pending p2) [(t2, r2)] Q3 Q1 S2 PC) as (X' & Y' & EQ & I & SUB).
  destruct H4 as (rest & H4). unfold p4 in H4. rewrite pending_app, EQ in H4. destruct X' as [|x X']; [destruct I|]. cbn in H4. injection H4 as -> _.
  apply N2, in_map_iff. exists (t2, r2). split; [reflexivity|]. apply SUB. left. reflexivity.
Qed.

(** * Progress *)

Definition holders (tr : list event) : nat := (length (readers tr) + length (writers tr) + length (granted tr))%nat.
Definition ends (l : list act) : nat := length (filter is_end l).

Lemma holders_pos tr s : inv tr s -> pending tr <> [] -> (1 <= holders tr)%nat.
Proof.
  intros V NE. pose proof (V_busy _ _ V NE) as B. rewrite (V_reading _ _ V), (V_writing _ _ V) in B. pose proof (length_counts _ _ V). unfold holders. lia.
Qed.

Lemma nodup_split (t : Z) (r : role) A B A' B' : NoDup (map fst (A ++ (t, r) :: B)) -> A ++ (t, r) :: B = A' ++ (t, r) :: B' -> A = A' /\ B = B'.
Proof.
  revert A'. induction A as [|x A IH]; intros A' ND E; destruct A' as [|y A']; cbn in *.
  - split; congruence.
  - injection E as <- E. cbn in ND. apply NoDup_cons_iff in ND as (N & _). exfalso. apply N. rewrite E, map_app. apply in_or_app. right. left. reflexivity.
  - injection E as -> E. cbn in ND. apply NoDup_cons_iff in ND as (N & _). exfalso. apply N. rewrite map_app. apply in_or_app. right. left. reflexivity.
  - injection E as <- E. apply NoDup_cons_iff in ND as (_ & ND). destruct (IH A' ND E) as (-> & ->). auto.
Qed.

(** A wait goes on while nothing is said about it. *)
Lemma note_keeps t r e A B : silent t [e] -> (forall u q, e <> Waits u q true) ->
  exists A' B', note_pending (A ++ (t, r) :: B) e = A' ++ (t, r) :: B' /\ (length A' <= length A)%nat.
Proof.
  intros SI PL.
  assert (W : forall u, u <> t -> exists A' B', without u (A ++ (t, r) :: B) = A' ++ (t, r) :: B' /\ (length A' <= length A)%nat).
  { intros u NE. unfold without. rewrite filter_app. cbn [filter fst]. destruct (Z.eqb_spec t u); [congruence|]. cbn [negb]. eexists _, _. split; [reflexivity|].
    clear. induction A as [|x A IH]; cbn; [lia|]. destruct (negb _); cbn; lia. }
  destruct (SI e (or_introl eq_refl)) as (S1 & S2). destruct e as [u q [|]|u q|u q v|u q v|v|v]; cbn [note_pending]; eauto.
  - exfalso. exact (PL u q eq_refl).
  - exists A, (B ++ [(u, q)]). rewrite <- app_assoc. auto.
  - apply W. intros ->. exact (S1 q eq_refl).
  - apply W. intros ->. exact (S2 q v eq_refl).
Qed.

Lemma leading_stop t r : forall A B, ~ In (t, r) (leading (A ++ (t, r) :: B)) -> exists A', A = leading (A ++ (t, r) :: B) ++ A'.
Proof.
  induction A as [|(u & q) A IH]; intros B N.
  - destruct r; cbn in *; try (exists []; reflexivity). tauto.
  - destruct q; cbn in *; try (eexists; reflexivity). destruct (IH B) as (A' & E); [tauto|]. exists A'. rewrite <- E. reflexivity.
Qed.
Lemma batch_stop t r A B : rw_role r -> ~ In (t, r) (next_batch (A ++ (t, r) :: B)) -> exists A', A = next_batch (A ++ (t, r) :: B) ++ A'.
Proof.
  intros RW N. destruct A as [|(u & q) A].
  - exfalso. apply N. destruct RW as [->| ->]; cbn; auto.
  - destruct q; try (apply (leading_stop t r ((u, _) :: A) B); exact N). cbn. exists A. reflexivity.
Qed.

Lemma pend_step tr s a s' es t r A B : inv tr s -> permitted tr s a -> step s a = Some (s', es) -> no_priority a ->
  pending tr = A ++ (t, r) :: B -> silent t es ->
  exists A' B', pending (tr ++ es) = A' ++ (t, r) :: B' /\
    (holders (tr ++ es) + length A' + (if is_end a then 1 else 0) <= holders tr + length A)%nat.
Proof.
  intros V P E NP PE SI. destruct (step_ok tr s a V P) as (s2 & es2 & E2 & V2 & AS). rewrite E in E2. injection E2 as <- <-.
  assert (NE : pending tr <> []) by (rewrite PE; intros X; apply app_eq_nil in X as (_ & X); discriminate).
  pose proof (holders_pos _ _ V NE) as HP.
  (* a trace that leaves the holders alone, or removes one *)
  assert (ONE : forall e tr1, silent t [e] -> (forall u q, e <> Waits u q true) -> forall A1 B1, pending tr1 = A1 ++ (t, r) :: B1 ->
    exists A' B', pending (tr1 ++ [e]) = A' ++ (t, r) :: B' /\ (length A' <= length A1)%nat).
  { intros e tr1 S N A1 B1 H. rewrite pending_app. cbn [fold_left]. rewrite H. apply note_keeps; assumption. }
  assert (HO : forall tr1 e, holders (tr1 ++ [e]) = (length (note_reader (readers tr1) e) + length (note_writer (writers tr1) e) + length (note_granted (granted tr1) e))%nat).
  { intros. unfold holders. rewrite readers_app, writers_app, granted_app. reflexivity. }
  assert (FAIL : forall tr1 u q v, v <> 0 -> ~ In u (map fst (granted tr1)) -> holders (tr1 ++ [Begun u q v]) = holders tr1).
  { intros tr1 u q v NZ N. unfold holders. destruct (trace_fail tr1 u q v NZ) as (-> & ->). rewrite granted_app. cbn. rewrite without_no by exact N. reflexivity. }
  destruct a as [u q to pr node|u rc|u q|v|]; cbn [is_end act_spec no_priority] in *.
  - destruct AS as (_ & AS). destruct P as (RW & W & _). destruct (none_out tr s u V W) as (N1 & N2).
    destruct AS as [(-> & _ & PN)|[(v & NZ & -> & _)|[(-> & _)|(v & NZ & -> & _)]]].
    + contradiction.
    + destruct (ONE (Begun u q v) tr SI ltac:(intros; discriminate) A B PE) as (A' & B' & H1 & H2). exists A', B'. split; [exact H1|]. rewrite FAIL by assumption. lia.
    + destruct pr; [contradiction|]. destruct (ONE (Waits u q false) tr SI ltac:(intros; discriminate) A B PE) as (A' & B' & H1 & H2). exists A', B'. split; [exact H1|]. rewrite HO. unfold holders. cbn. lia.
    + destruct pr; [contradiction|]. change [Waits u q false; Begun u q v] with ([Waits u q false] ++ [Begun u q v]) in *. apply silent_app in SI as (SI1 & SI2).
      destruct (ONE (Waits u q false) tr SI1 ltac:(intros; discriminate) A B PE) as (A1 & B1 & H1 & H2).
      destruct (ONE (Begun u q v) (tr ++ [Waits u q false]) SI2 ltac:(intros; discriminate) A1 B1 H1) as (A2 & B2 & H3 & H4).
      rewrite app_assoc. exists A2, B2. split; [exact H3|]. rewrite FAIL; [|assumption|rewrite granted_app; exact N2]. rewrite HO. unfold holders. cbn. lia.
  - destruct AS as (_ & q & [(I & ->)|[(_ & _ & ->)|(v & NZ & I & _ & ->)]]).
    + destruct (ONE (Begun u q 0) tr SI ltac:(intros; discriminate) A B PE) as (A' & B' & H1 & H2). exists A', B'. split; [exact H1|].
      destruct (nodup_grant _ _ V) as (NG & _). pose proof (length_without u q _ NG I) as L. destruct (V_grant _ _ V u q I) as (_ & RW & _).
      destruct (trace_ok tr u q RW) as (T1 & T2). unfold holders. rewrite T1, T2, granted_app. cbn [fold_left note_granted]. rewrite L. destruct RW as [->| ->]; cbn [role_eqb app length]; lia.
    + rewrite app_nil_r. exists A, B. split; [exact PE|]. lia.
    + destruct (ONE (Begun u q v) tr SI ltac:(intros; discriminate) A B PE) as (A' & B' & H1 & H2). exists A', B'. split; [exact H1|]. rewrite FAIL; [lia|exact NZ|].
      destruct (nodup_grant _ _ V) as (_ & DJ). apply DJ, in_map_iff. exists (u, q). auto.
  - destruct P as (_ & P).
    assert (EN : (length (fold_left note_reader [Ended u q 0] (readers tr)) + length (fold_left note_writer [Ended u q 0] (writers tr)) + 1 = length (readers tr) + length (writers tr))%nat).
    { destruct P as [(-> & I)|(-> & I)]; pose proof (remove_length _ _ I); cbn; lia. }
    unfold last_one in AS. fold (holders tr) in AS. destruct (Nat.eqb_spec (holders tr) 1) as [LO|LO]; rewrite AS in SI |- *.
    + apply silent_app in SI as (SI & _). pose proof (nodup_pend _ _ V) as ND. pose proof (pend_rw _ _ V) as PRW.
      assert (RWT : rw_role r) by (apply (PRW t r); rewrite PE; apply in_or_app; right; left; reflexivity).
      assert (NI : ~ In (t, r) (next_batch (pending tr))).
      { intros X. destruct (SI (Grants t r)) as (S1 & _); [apply in_map_iff; exists (t, r); auto|]. exact (S1 r eq_refl). }
      rewrite PE in NI. destruct (batch_stop t r A B RWT NI) as (A' & EA). rewrite <- PE in EA. exists A', B.
      assert (P2 : pending tr = next_batch (pending tr) ++ A' ++ (t, r) :: B) by (rewrite app_assoc, <- EA; exact PE).
      split.
      * rewrite pending_app, fold_left_app. rewrite P2 at 2. rewrite pend_grants by (rewrite <- P2; exact ND). reflexivity.
      * unfold holders in LO |- *. rewrite readers_app, writers_app, granted_app, !fold_left_app, read_grants, write_grants, grant_grants. cbn [fold_left note_granted].
        rewrite app_length, rev_length. assert (LA : length A = (length (next_batch (pending tr)) + length A')%nat) by (rewrite EA at 1; rewrite app_length; reflexivity).
        cbn [fold_left] in EN. lia.
    + cbn [app]. exists A, B. split; [rewrite pending_app; exact PE|]. rewrite HO. unfold holders. cbn [note_granted fold_left] in *. lia.
  - destruct AS as (d & ->). destruct (ONE (Debugged d) tr SI ltac:(intros; discriminate) A B PE) as (A' & B' & H1 & H2). exists A', B'. split; [exact H1|]. rewrite HO. unfold holders. cbn. lia.
  - rewrite AS in *. destruct (ONE _ tr SI ltac:(intros; discriminate) A B PE) as (A' & B' & H1 & H2). exists A', B'. split; [exact H1|]. rewrite HO. unfold holders. cbn. lia.
Qed.

Lemma progress tr0 s0 t r A B : inv tr0 s0 -> pending tr0 = A ++ (t, r) :: B -> forall l tr s, exec tr0 s0 l tr s -> Forall no_priority l ->
  exists es, tr = tr0 ++ es /\ (silent t es -> exists A' B', pending tr = A' ++ (t, r) :: B' /\ (holders tr + length A' + ends l <= holders tr0 + length A)%nat).
Proof.
  intros V0 P0. induction 1 as [|l tr s a s' es X IH P E]; intros NP.
  - exists []. rewrite app_nil_r. split; [reflexivity|]. intros _. exists A, B. split; [exact P0|]. cbn. lia.
  - apply Forall_app in NP as (NP & NP1). apply Forall_inv in NP1. destruct (IH NP) as (es0 & -> & H). exists (es0 ++ es). rewrite app_assoc. split; [reflexivity|].
    intros S. apply silent_app in S as (S1 & S2). destruct (H S1) as (A1 & B1 & P1 & L1).
    destruct (pend_step _ _ a s' es t r A1 B1 (exec_inv _ _ V0 _ _ _ X) P E NP1 P1 S2) as (A2 & B2 & P2 & L2). exists A2, B2. split; [exact P2|].
    unfold ends in *. rewrite filter_app, app_length. cbn [filter length]. destruct (is_end a); cbn [length] in *; lia.
Qed.
