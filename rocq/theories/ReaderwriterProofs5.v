(** Proofs about the reader writer locks: failure, batches, and executions one can
    compute. *)

From Coq Require Import ZArith List Bool Lia.
From Verif Require Import CInt CUtil ReaderwriterModel ReaderwriterSpec ReaderwriterProofs ReaderwriterProofs2 ReaderwriterProofs3 ReaderwriterProofs4.
Import ListNotations.
Local Open Scope Z_scope.

Lemma failure tr s a s' es t r v : inv tr s -> inv (tr ++ es) s' -> permitted tr s a -> act_spec tr s a s' es -> In (Begun t r v) es -> v <> 0 ->
  ~ In t (map fst (pending (tr ++ es))) /\ ~ In t (map fst (granted (tr ++ es))) /\ waits s' t = None /\ ~ In t (queue s') /\
  readers (tr ++ es) = readers tr /\ writers (tr ++ es) = writers tr /\ granted (tr ++ es) = granted tr /\
  pending (tr ++ es) = without t (pending tr) /\ reading s' = reading s /\ writing s' = writing s.
Proof.
  intros V V2 P A I NZ.
  assert (GOAL : granted (tr ++ es) = granted tr -> ~ In t (map fst (granted tr)) -> readers (tr ++ es) = readers tr -> writers (tr ++ es) = writers tr ->
    pending (tr ++ es) = without t (pending tr) ->
    ~ In t (map fst (pending (tr ++ es))) /\ ~ In t (map fst (granted (tr ++ es))) /\ waits s' t = None /\ ~ In t (queue s') /\
    readers (tr ++ es) = readers tr /\ writers (tr ++ es) = writers tr /\ granted (tr ++ es) = granted tr /\
    pending (tr ++ es) = without t (pending tr) /\ reading s' = reading s /\ writing s' = writing s).
  { intros G NG R W PE. assert (N : ~ In t (map fst (pending (tr ++ es)))) by (rewrite PE; apply without_not).
    split; [exact N|]. split; [rewrite G; exact NG|].
    split. { destruct (waits s' t) as [(q & w)|] eqn:X; [exfalso|reflexivity]. destruct (V_waits _ _ V2 _ _ _ X) as [Y|Y]; [apply N|rewrite G in Y; apply NG]; apply in_map_iff; exists (t, q); auto. }
    split; [destruct (V_queue _ _ V2) as (Q & _); rewrite Q; exact N|]. split; [exact R|]. split; [exact W|]. split; [exact G|]. split; [exact PE|].
    split; [rewrite (V_reading _ _ V2), (V_reading _ _ V), R, G; reflexivity|rewrite (V_writing _ _ V2), (V_writing _ _ V), W, G; reflexivity]. }
  destruct a as [u q to pr node|u rc|u q|d|]; cbn [act_spec] in A.
  - destruct A as (_ & A). destruct P as (RW & W & _). destruct (none_out tr s u V W) as (N1 & N2). destruct A as [(-> & _)|[(v' & NZ' & -> & _)|[(-> & _)|(v' & NZ' & -> & _)]]].
    + destruct I as [I|[]]. congruence.
    + destruct I as [I|[]]. injection I as -> -> ->. destruct (trace_fail tr t r v NZ) as (T1 & T2). apply GOAL; auto; [rewrite granted_app; apply without_no, N2|rewrite pending_app; reflexivity].
    + destruct I as [I|[]]. discriminate.
    + destruct I as [I|[I|[]]]; [discriminate|]. injection I as -> -> ->. destruct (trace_fail (tr ++ [Waits t r pr]) t r v NZ) as (T1 & T2). rewrite <- app_assoc in T1, T2. cbn [app] in T1, T2.
      apply GOAL; auto.
      * rewrite granted_app. cbn. apply without_no, N2.
      * rewrite T1, readers_app. reflexivity.
      * rewrite T2, writers_app. reflexivity.
      * rewrite pending_app. cbn [fold_left]. destruct pr; cbn [note_pending]; unfold without; cbn [filter fst]; rewrite ?filter_app; cbn [filter fst]; rewrite Z.eqb_refl; cbn [negb]; rewrite ?app_nil_r; reflexivity.
  - destruct A as (_ & q & [(_ & ->)|[(_ & _ & ->)|(v' & NZ' & J & _ & ->)]]).
    + destruct I as [I|[]]. congruence.
    + destruct I.
    + destruct I as [I|[]]. injection I as -> -> ->. destruct (trace_fail tr t r v NZ) as (T1 & T2). destruct (nodup_grant _ _ V) as (_ & DJ).
      assert (N2 : ~ In t (map fst (granted tr))) by (apply DJ, in_map_iff; exists (t, r); auto). apply GOAL; auto; [rewrite granted_app; apply without_no, N2|rewrite pending_app; reflexivity].
  - exfalso. rewrite A in I. apply in_app_or in I as [I|[I|[]]]; [|discriminate]. destruct (last_one tr); [|destruct I]. apply in_map_iff in I as (p & X & _). discriminate.
  - exfalso. destruct A as (d' & ->). destruct I as [I|[]]. discriminate.
  - exfalso. rewrite A in I. destruct I as [I|[]]. discriminate.
Qed.

Lemma trailing_first : forall l, (forall t r, In (t, r) l -> rw_role r) -> trailing l = [] \/ exists w l', trailing l = (w, WRITER) :: l'.
Proof.
  induction l as [|(t & r) l IH]; intros H; [auto|]. destruct (H t r (or_introl eq_refl)) as [->| ->].
  - cbn. apply IH. intros x y X. apply (H x y). right. exact X.
  - right. cbn. eauto.
Qed.

Lemma together tr s t r es u : inv tr s -> es = (if last_one tr then map grant (next_batch (pending tr)) else []) ++ [Ended t r 0] -> In (Grants u READER) es ->
  exists readers rest, pending tr = readers ++ rest /\ Forall (fun p => snd p = READER) readers /\ (rest = [] \/ exists w rest', rest = (w, WRITER) :: rest') /\
    es = map (fun p => Grants (fst p) READER) readers ++ [Ended t r 0] /\ pending (tr ++ es) = rest.
Proof.
  intros V ES I. pose proof (nodup_pend _ _ V) as ND. destruct (last_one tr) eqn:LO.
  2: { exfalso. subst es. destruct I as [I|[]]. discriminate. }
  assert (J : In (u, READER) (next_batch (pending tr))).
  { subst es. apply in_app_or in I as [I|[I|[]]]; [|discriminate]. apply in_map_iff in I as ((x & y) & E & I). cbv [grant fst snd] in E. injection E as -> ->. exact I. }
  assert (NB : next_batch (pending tr) = leading (pending tr)).
  { destruct (pending tr) as [|(x & y) l]; [reflexivity|]. destruct y; try reflexivity. cbn in J. destruct J as [J|[]]. discriminate. }
  assert (F : Forall (fun p : Z * role => snd p = READER) (leading (pending tr))) by (apply Forall_forall; intros (x & y) X; exact (leading_readers _ _ _ X)).
  assert (EQ : map grant (leading (pending tr)) = map (fun p => Grants (fst p) READER) (leading (pending tr))).
  { apply map_ext_in. intros (x & y) X. rewrite Forall_forall in F. specialize (F _ X). cbn in F. subst y. reflexivity. }
  exists (leading (pending tr)), (trailing (pending tr)). split; [apply leading_split|]. split; [exact F|]. split; [apply trailing_first; intros; eapply pend_rw; eauto|].
  split; [subst es; rewrite NB, EQ; reflexivity|]. subst es. rewrite pending_app, fold_left_app, NB. rewrite (leading_split (pending tr)) at 2. rewrite pend_grants by (rewrite <- leading_split; exact ND). reflexivity.
Qed.

Lemma permitted_ok tr s a : permitted_b tr s a = true -> permitted tr s a.
Proof.
  destruct a as [t r to pr node|t rc|t r|v|]; cbn [permitted_b permitted]; auto.
  - intros H. apply andb_prop in H as (H & L). apply andb_prop in H as (H1 & H2). apply Z.ltb_lt in L. split; [|split; [|exact L]].
    + apply orb_prop in H1 as [H1|H1]; apply role_eqb_eq in H1; auto.
    + destruct (waits s t); [discriminate|reflexivity].
  - destruct (waits s t); [discriminate|]. intros X. discriminate.
  - intros H. apply andb_prop in H as (H1 & H2). split; [destruct (waits s t); [discriminate|reflexivity]|].
    assert (EX : forall l, existsb (Z.eqb t) l = true -> In t l) by (intros l X; apply existsb_exists in X as (x & X & Y); apply Z.eqb_eq in Y; subst; exact X).
    apply orb_prop in H2 as [H2|H2]; apply andb_prop in H2 as (A & B); apply role_eqb_eq in A; auto.
Qed.
Lemma exec_cons tr0 s0 a s1 es : permitted tr0 s0 a -> step s0 a = Some (s1, es) -> forall l tr s, exec (tr0 ++ es) s1 l tr s -> exec tr0 s0 (a :: l) tr s.
Proof.
  intros P E. induction 1 as [|l tr s b s' fs X IH PB EB].
  - exact (X_step _ _ _ _ _ _ _ _ (X_start _ _) P E).
  - change (a :: l ++ [b]) with ((a :: l) ++ [b]). eapply X_step; eauto.
Qed.
Lemma play_exec : forall l tr0 s0 tr s, play tr0 s0 l = Some (tr, s) -> exec tr0 s0 l tr s.
Proof.
  induction l as [|a l IH]; cbn [play]; intros tr0 s0 tr s H; [injection H as <- <-; constructor|].
  destruct (permitted_b tr0 s0 a) eqn:P; [|discriminate]. destruct (step s0 a) as [(s1 & es)|] eqn:E; [|discriminate]. apply (exec_cons tr0 s0 a s1 es); auto. apply permitted_ok, P.
Qed.
Lemma play_run l tr s : play [] init l = Some (tr, s) -> run tr s.
Proof. intros H. exists l. apply play_exec, H. Qed.
Lemma play_get {A} (f : list event * rw -> A) l tr s v : play [] init l = Some (tr, s) -> option_map f (play [] init l) = Some v -> f (tr, s) = v.
Proof. intros ->. cbn. congruence. Qed.

Lemma priority_first tr s a t r c u q d : run tr s -> tr = a ++ Waits t r true :: c ++ Grants u q :: d ->
  (forall x y, ~ In (Waits x y true) c) -> (forall x y, ~ In (Grants x y) c) -> (forall y v, ~ In (Begun t y v) c) -> u = t /\ q = r.
Proof.
  intros R E PL NG NB.
  assert (H : event_spec ((a ++ [Waits t r true]) ++ c) (Grants u q)).
  { apply (event_ok tr s _ _ d R). rewrite E, <- !app_assoc. reflexivity. }
  destruct H as (rest & H). rewrite pending_app in H.
  assert (S : silent t c) by (intros e I; split; intros; intros ->; [eapply NG|eapply NB]; eauto).
  destruct (stays_front t c (pending (a ++ [Waits t r true])) [(t, r)] (pending a)) as (X & Y & EQ & I & SUB); [rewrite pending_app; reflexivity|left; reflexivity|exact S|exact PL|].
  rewrite EQ in H. destruct X as [|x X]; [destruct I|]. destruct (SUB x (or_introl eq_refl)) as [<-|[]]. cbn in H. injection H as -> -> _. auto.
Qed.

(** Nothing but asking for it changes whether debugging is enabled. *)
Lemma dequeue_debugging s t s' : dequeue s t = Some s' -> debugging s' = debugging s.
Proof. unfold dequeue, bind. destruct (ck_s32 _); [|discriminate]. intros E. injection E as <-. reflexivity. Qed.
Lemma enqueue_debugging s t p s' : enqueue s t p = Some s' -> debugging s' = debugging s.
Proof.
  unfold enqueue, bind. destruct (ck_s32 _); [|discriminate]. intros E. injection E as <-. cbn zeta.
  destruct p; [destruct (front _ _)|]; destruct (_ <? _); reflexivity.
Qed.
Lemma head_from_debugging : forall n s s' h, head_from n s = Some (s', h) -> debugging s' = debugging s.
Proof.
  induction n as [|n IH]; intros s s' h; cbn [head_from]; destruct (queue s) as [|t q]; try (intros E; injection E as <- _; reflexivity);
    destruct (role_eqb _ _); try discriminate; try (intros E; injection E as <- _; reflexivity).
  unfold bind. destruct (dequeue s t) as [s1|] eqn:D; [|discriminate]. intros E. rewrite (IH _ _ _ E). exact (dequeue_debugging _ _ _ D).
Qed.
Lemma resume_loop_debugging : forall n s q cp res l s' cp' res' l', resume_loop n s q cp res l = Some (s', cp', res', l') -> debugging s' = debugging s.
Proof.
  induction n as [|n IH]; intros s q cp res l s' cp' res' l'; cbn [resume_loop]; unfold bind, head; destruct (head_from _ s) as [(s1, h)|] eqn:H; try discriminate;
    pose proof (head_from_debugging _ _ _ _ H) as HD; rewrite <- HD; (destruct h as [t|]; [|intros E; injection E as <- _ _ _; reflexivity]);
    (destruct (role_eqb (data s1 t) READER && _); [destruct (dequeue s1 t) as [s2|] eqn:D; [|discriminate]; destruct (ck_s32 _) as [v|]; [|discriminate]|
     destruct (role_eqb (data s1 t) WRITER && _); [destruct (dequeue s1 t) as [s2|] eqn:D; [|discriminate]; intros E; injection E as <- _ _ _; exact (dequeue_debugging _ _ _ D)|
       intros E; injection E as <- _ _ _; reflexivity]]).
  - discriminate.
  - intros E. rewrite (IH _ _ _ _ _ _ _ _ _ E). exact (dequeue_debugging _ _ _ D).
Qed.
Lemma resume_debugging s q s' r l : resume s q = Some (s', r, l) -> debugging s' = debugging s.
Proof.
  unfold resume, bind. destruct (resume_loop _ _ _ _ _ _) as [(((s1, cp), res), l1)|] eqn:E; [|discriminate]. pose proof (resume_loop_debugging _ _ _ _ _ _ _ _ _ _ E) as D.
  intros Q. injection Q as <- _ _. destruct cp; exact D.
Qed.
Lemma scheduled_debugging s t rc s' rc' : scheduled s t rc = Some (s', rc') -> debugging s' = debugging s.
Proof.
  unfold scheduled, bind. destruct (negb (rc =? 0)); [|intros E; injection E as <- _; reflexivity].
  destruct (role_eqb _ READABLE); [intros E; injection E as <- _; reflexivity|]. destruct (role_eqb _ WRITABLE); [intros E; injection E as <- _; reflexivity|].
  destruct (dequeue s t) as [s1|] eqn:D; [|discriminate]. intros E. injection E as <- _. exact (dequeue_debugging _ _ _ D).
Qed.
Lemma begun_debugging s t r v s' es : begun s t r v = Some (s', es) -> debugging s' = debugging s.
Proof. unfold begun, bind. destruct (audit_if s); [|discriminate]. destruct (contract _); [|discriminate]. intros E. injection E as <- _. reflexivity. Qed.
Lemma begin_debugging s t r to p nd s' es : begin s t r to p nd = Some (s', es) -> debugging s' = debugging s.
Proof.
  unfold begin. destruct nd; cbn [negb]; [|intros E; injection E as <- _; reflexivity].
  match goal with |- bind ?x _ = _ -> _ => destruct x as [(s1, free)|] eqn:H end; unfold bind; [|discriminate].
  assert (HD : debugging s1 = debugging s).
  { destruct (if role_eqb r READER then _ else _) in H; [|injection H as <- _; reflexivity].
    unfold bind, head in H. destruct (head_from _ s) as [(s2, h)|] eqn:HF; [|discriminate]. injection H as <- _. exact (head_from_debugging _ _ _ _ HF). }
  rewrite <- HD. clear H HD. destruct free.
  - destruct (role_eqb r READER); [destruct (ck_s32 _); [|discriminate]|]; intros E; rewrite (begun_debugging _ _ _ _ _ _ E); reflexivity.
  - destruct to as [| |[|]]; [intros E; exact (begun_debugging _ _ _ _ _ _ E)| | |];
      destruct (enqueue _ t p) as [s2|] eqn:Q; try discriminate; pose proof (enqueue_debugging _ _ _ _ Q) as QD; cbn [dataset with_data debugging] in QD;
      [intros E; injection E as <- _; exact QD|intros E; injection E as <- _; exact QD|].
    destruct (scheduled s2 t 5) as [(s3, rc)|] eqn:S; [|discriminate]. pose proof (scheduled_debugging _ _ _ _ _ S) as SD.
    destruct (begun s3 t r _) as [(s4, l)|] eqn:B; [|discriminate]. intros E. injection E as <- _. rewrite (begun_debugging _ _ _ _ _ _ B). congruence.
Qed.
Lemma step_debugging s a s' es : step s a = Some (s', es) -> debugging s' = match a with Debug v => v | _ => debugging s end.
Proof.
  destruct a as [t r to p nd|t rc|t r|v|]; cbn [step].
  - apply begin_debugging.
  - unfold wake. destruct (waits s t) as [(r, b)|]; [|discriminate]. destruct ((rc =? 0) && _); [intros E; injection E as <- _; reflexivity|].
    cbn zeta. unfold bind. destruct (scheduled _ t rc) as [(s1, rc1)|] eqn:S; [|discriminate]. intros E. rewrite (begun_debugging _ _ _ _ _ _ E). exact (scheduled_debugging _ _ _ _ _ S).
  - destruct (role_eqb r READER); [unfold reader_end|unfold writer_end]; unfold bind; (destruct (contract _); [|discriminate]).
    + destruct (ck_s32 _) as [v|]; [|discriminate]. destruct (0 <? _).
      * destruct (audit_if _); [|discriminate]. destruct (contract _); [|discriminate]. intros E. injection E as <- _. reflexivity.
      * destruct (resume _ ANY) as [((s1, q), l)|] eqn:R; [|discriminate]. destruct (audit_if _); [|discriminate]. destruct (contract _); [|discriminate].
        intros E. injection E as <- _. exact (resume_debugging _ _ _ _ _ R).
    + destruct (resume _ ANY) as [((s1, q), l)|] eqn:R; [|discriminate]. destruct (audit_if _); [|discriminate]. destruct (contract _); [|discriminate].
      intros E. injection E as <- _. exact (resume_debugging _ _ _ _ _ R).
  - unfold debug. intros E. injection E as <- _. reflexivity.
  - unfold take_maximum. intros E. injection E as <- _. reflexivity.
Qed.
Lemma exec_debugging l tr s : exec [] init l tr s -> debugging s = last_debug l.
Proof.
  induction 1 as [|l tr s a s' es X IH P E]; [reflexivity|]. unfold last_debug. rewrite fold_left_app. cbn [fold_left]. fold (last_debug l). rewrite <- IH. exact (step_debugging _ _ _ _ E).
Qed.
