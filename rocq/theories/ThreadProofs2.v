(** Each step of a caller of diminuto_thread_join_until keeps the invariant. *)

From Coq Require Import ZArith List Bool Arith Lia.
From Verif Require Import CUtil CInt ThreadModel ThreadSpec ThreadProofs.
Import ListNotations.
Local Open Scope Z_scope.

Lemma step_good signals last w r i : rel signals last w r -> good signals last r (join_step w i).
Proof.
  intros R. open_all. unfold join_step. cbn [callers state thread current value]. destruct (ca i) eqn:Ei; try exact I;
  (by_place; [| | | | | | |rewrite Others in Ei; discriminate];
  (assert (i = i0) by (destruct (Nat.eq_dec i i0); [assumption|rewrite Others in Ei by assumption; discriminate])); subst i0; try congruence);
  (rewrite Ep in Ei; injection Ei; intros; subst).
  all: try by_life; facts; try congruence; cbn [is handle at_]; rewrite ?Z.eqb_refl; try exact I; try match goal with H : ?a <> ?b |- context [Z.eqb ?a ?b] => rewrite (proj2 (Z.eqb_neq a b) H) end;
    try match goal with |- context [Z.eqb ?a ?b] => destruct (Z.eqb_spec a b) end; subst; try congruence.
  all: cbn [good newest observe l_life pending joining is]; rewrite ?Nat.eqb_refl; cbn [negb andb Z.eqb]; rewrite ?Z.eqb_refl; cbn [negb andb].
  all: try (eexists; split; [reflexivity|]); prove_rel; eauto 9; (split; [fin|]); rewrite ?Nat.eqb_refl; cbn [woken placed state current thread l_life go signal set_state set_value set_count set_current]; facts; try pick.
  all: intros j; destruct (Nat.eqb_spec j i); [reflexivity|auto].
Qed.

Lemma all_good signals last w r a : rel signals last w r -> permitted r a = true -> good signals last r (step w a).
Proof.
  intros R P. destruct a; cbn [step]; try (destruct (current w) as [k|] eqn:E; [apply work_good; assumption|exact I]).
  - apply start_good; assumption.
  - apply notify_good; assumption.
  - apply begin_good; assumption.
  - apply step_good; assumption.
  - apply spurious_good; assumption.
  - apply timeout_good; assumption.
  - apply fini_good; assumption.
  - apply get_state_good; assumption.
Qed.
Lemma rel_initial signals h : rel signals h (initial signals h) r_initial.
Proof. constructor; cbn; auto; try lia. split; [reflexivity|discriminate]. Qed.
Lemma conforms_ok l : forall signals last w r, rel signals last w r -> conforms w last r l.
Proof.
  induction l as [|a l IH]; intros signals last w r R; [exact I|]. cbn [conforms]. intros P. pose proof (all_good _ _ _ _ a R P) as G. unfold good in G.
  destruct (step w a) as [w' e| |]; [|exact I|exact G]. destruct G as (r' & O & R'). exists r'. rewrite (config _ _ _ _ R). split; [exact O|]. exact (IH _ _ _ _ R').
Qed.

(** Facts about the past that are kept beside the invariant. *)
Definition told (r : ref) (f : option (Z * Z) * list event) : Prop :=
  match l_life r with
  | Alive c h InFunction => f = (Some (c, h), [Called c])
  | Alive c h _ => f = (Some (c, h), [])
  | Over v h _ => exists c, f = (Some (c, h), [Called c; Ended v])
  | Terminated v h => exists c, f = (Some (c, h), [Called c; Ended v; Dies h v])
  | Past v => exists c h, f = (Some (c, h), [Called c; Ended v; Dies h v; JoinDone v])
  | _ => True
  end.
Definition balanced (r : ref) (t : Z * Z) : Prop := fst t = snd t + pending r.
Lemma told_step signals last r e r' f : observe signals last r e = Some r' -> told r f -> told r' (chronicle f e).
Proof.
  intros O T. destruct r as [li pe jo]. unfold told in *. cbn [l_life] in T.
  destruct e as [|c h|[]|[t|]| |i me timed|v|i rc [v|]|[]|s| |c|n|v| |t v]; cbn [observe l_life pending joining startable reached] in O;
  repeat match type of O with
  | match ?x with _ => _ end = Some _ => destruct x eqn:?; try discriminate
  | (if ?x then _ else _) = Some _ => destruct x eqn:?; try discriminate
  end;
  assert (Q := f_equal (fun o => match o with Some x => l_life x | None => NoMore end) O); cbn in Q; clear O; rewrite <- Q; cbn [chronicle milestone]; split_all; subst; cbn [fst snd app]; try exact I; try assumption; try reflexivity; try discriminate; eauto;
  repeat match goal with
  | H : Z.eqb _ _ = true |- _ => apply Z.eqb_eq in H; subst
  | H : (_ && _)%bool = true |- _ => apply andb_prop in H as (? & ?)
  | p : progress |- _ => destruct p
  end; subst; try discriminate; eauto.
Qed.
Lemma balanced_step signals last r e r' t : observe signals last r e = Some r' -> balanced r t -> balanced r' (tally t e).
Proof.
  intros O T. destruct r as [li pe jo]. destruct t as [x y]. unfold balanced in *. cbn [pending fst snd] in T.
  destruct e as [|c h|[]|[t|]| |i me timed|v|i rc [v|]|[]|s| |c|n|v| |t v]; cbn [observe l_life pending joining startable reached] in O;
  repeat match type of O with
  | match ?x with _ => _ end = Some _ => destruct x eqn:?; try discriminate
  | (if ?x then _ else _) = Some _ => destruct x eqn:?; try discriminate
  end;
  assert (Q := f_equal (fun o => match o with Some x => pending x | None => 0 end) O); cbn in Q; clear O; rewrite <- Q; cbn [tally fst snd pending]; subst; try lia.
Qed.

Lemma r_run_rel l : forall signals last w r last' w' r' es f t, rel signals last w r -> told r f -> balanced r t -> r_run w last r l = Some (w', last', r', es) ->
  rel signals last' w' r' /\ told r' (fold_left chronicle es f) /\ balanced r' (fold_left tally es t).
Proof.
  induction l as [|a l IH]; intros signals last w r last' w' r' es f t R T B E; cbn [r_run] in E.
  - assert (w' = w /\ last' = last /\ r' = r /\ es = []) as (-> & -> & -> & ->) by (repeat split; congruence). auto.
  - destruct (permitted r a) eqn:P; [|discriminate]. pose proof (all_good _ _ _ _ a R P) as G. unfold good in G. destruct (step w a) as [w1 e| |]; try discriminate.
    destruct G as (r1 & O & R1). rewrite (config _ _ _ _ R), O in E. cbn [bind] in E. destruct (r_run w1 (newest last e) r1 l) as [[[[w2 last2] r2] es2]|] eqn:E2; [|discriminate]. cbn [bind] in E.
    assert (w' = w2 /\ last' = last2 /\ r' = r2 /\ es = e :: es2) as (-> & -> & -> & ->) by (repeat split; congruence).
    cbn [fold_left]. exact (IH _ _ _ _ _ _ _ _ _ _ R1 (told_step _ _ _ _ _ _ O T) (balanced_step _ _ _ _ _ _ O B) E2).
Qed.
Lemma reachable_rel signals h w last r es : reachable signals h w last r es -> rel signals last w r /\ told r (fate es) /\ balanced r (tallied es).
Proof. intros (l & E). apply (r_run_rel l _ _ _ _ _ _ _ _ _ _ (rel_initial signals h)) with (3 := E); [exact I|reflexivity]. Qed.

(** The last steps of a join of a thread that has terminated. *)
Definition ends (w : world) (i n : nat) (v : Z) : Prop := exists w' es, run w (repeat (JoinStep i) n) = Some (w', es ++ [JoinReturns i 0 (Some v)]).
Lemma ends_step w w1 e i n v : join_step w i = Does w1 e -> ends w1 i n v -> ends w i (S n) v.
Proof. intros E (w' & es & H). exists w', (e :: es). cbn [repeat run step]. rewrite E, H. reflexivity. Qed.
Lemma ends_last w i rc me v : callers w i = Last rc me -> state w = JOINED -> value w = v -> me <> thread w -> ends w i 1 v.
Proof.
  intros E St V N. exists (go w i Out), []. cbn [repeat run step]. unfold join_step. rewrite E, St. cbn [is]. rewrite (proj2 (Z.eqb_neq _ _) N), V. reflexivity.
Qed.
Lemma ends_reaped w i me v : callers w i = Reaped me v -> me <> thread w -> ends w i 2 v.
Proof.
  intros E N. eapply ends_step; [unfold join_step; rewrite E; reflexivity|]. apply ends_last with (rc := 0) (me := me); try reflexivity; [|exact N]. cbn. rewrite Nat.eqb_refl. reflexivity.
Qed.
Lemma ends_in w i me h v : callers w i = InJoin me h -> current w = Some (Worker h (Dead v)) -> me <> thread w -> ends w i 3 v.
Proof.
  intros E C N. eapply ends_step; [unfold join_step; rewrite E, C; cbn [handle at_]; rewrite Z.eqb_refl; reflexivity|]. apply ends_reaped with (me := me); [apply go_same|exact N].
Qed.
Lemma ends_look w i rc me h v : callers w i = Look rc me -> state w = EXITING -> thread w = h -> current w = Some (Worker h (Dead v)) -> me <> thread w -> ends w i 4 v.
Proof.
  intros E St T C N. eapply ends_step; [unfold join_step; rewrite E, St; cbn [is]; rewrite (proj2 (Z.eqb_neq _ _) N); reflexivity|]. apply ends_in with (me := me) (h := h); [rewrite go_same; congruence|exact C|exact N].
Qed.
Lemma last_steps signals last w r i me v h : rel signals last w r -> joining r = Some (i, me, false) -> me <> last -> l_life r = Terminated v h ->
  exists n, (n <= 5)%nat /\ ends w i n v.
Proof.
  intros R J N L. destruct R as [C La Co Bo Li Pl]. rewrite J in Pl. destruct Pl as (_ & H). unfold living in Li. rewrite L in Li. destruct Li as (St & Th & Cu). subst last.
  destruct (callers w i) as [|m t|m t|rc m|m t|m u|rc m] eqn:Ei; cbn [placed] in H; [contradiction| | | | | |].
  - facts; congruence.
  - destruct H as (-> & -> & _ & K). destruct Cu as [Cu|]; [|contradiction]. exists 5%nat. split; [lia|].
    eapply ends_step; [unfold join_step; rewrite Ei, St; cbn [is]; reflexivity|]. apply ends_look with (rc := 0) (me := me) (h := h); [apply go_same|exact St|exact Th|exact Cu|exact N].
  - destruct H as (-> & K). destruct Cu as [Cu|]; [|facts; intuition congruence]. exists 4%nat. split; [lia|]. apply ends_look with (rc := rc) (me := me) (h := h); assumption.
  - destruct H as (-> & -> & _ & _ & K). destruct Cu as [Cu|]; [|contradiction]. exists 3%nat. split; [lia|]. apply ends_in with (me := me) (h := h); congruence.
  - destruct H as (-> & _ & _ & _ & h' & K). assert (u = v) by congruence. subst u. exists 2%nat. split; [lia|]. apply ends_reaped with (me := me); assumption.
  - destruct H as (-> & _ & K). facts; congruence.
Qed.
(** Somebody can always go on. *)
Lemma not_stuck signals last w r i me timed : rel signals last w r -> joining r = Some (i, me, timed) ->
  (exists w' e, step w (JoinStep i) = Does w' e) \/ (exists a w' e, of_thread a = true /\ step w a = Does w' e).
Proof.
  intros R J. destruct R as [C La Co Bo Li Pl]. rewrite J in Pl. destruct Pl as (_ & H).
  assert (K : forall k, current w = Some k -> match at_ k with Dead _ => False | _ => True end -> exists a w' e, of_thread a = true /\ step w a = Does w' e).
  { intros [h st] E D. cbn [at_] in D. destruct st as [| | |how v|v|how v|v]; [exists WorkerRun|exists WorkerCall|exists WorkerTake|exists WorkerLeave|exists WorkerLeave|exists WorkerDie|contradiction];
    cbn [step]; rewrite E; unfold work; cbn [at_ handle]; eexists; eexists; (split; [reflexivity|reflexivity]). }
  destruct (callers w i) as [|m t|m t|rc m|m t|m u|rc m] eqn:Ei; cbn [placed] in H; [contradiction| | | | | |].
  - right. destruct H as (_ & _ & _ & N & S). destruct (current w) as [k|] eqn:E; [|contradiction]. apply (K k); [reflexivity|]. unfold living in Li. rewrite E in Li.
    destruct (l_life r) as [[|]|c h [| |]|v h [|]|v h|v|]; facts; try congruence; match goal with H : Some k = Some _ |- _ => injection H as -> end; exact I.
  - left. cbn [step]. unfold join_step. rewrite Ei. eauto.
  - left. cbn [step]. unfold join_step. rewrite Ei. destruct (is (state w) EXITING); eauto.
  - destruct H as (_ & -> & _ & S & N). destruct (current w) as [k|] eqn:E; [|contradiction]. destruct (at_ k) as [| | |how v|v|how v|v] eqn:A; try (right; apply (K k); [reflexivity|rewrite A; exact I]).
    left. cbn [step]. unfold join_step. rewrite Ei, E, A. unfold living in Li. rewrite E in Li.
    assert (Q : handle k = thread w).
    { destruct (l_life r) as [[|]|c h [| |]|v0 h [|]|v0 h|v0|]; facts; try congruence; match goal with H : Some k = Some _ |- _ => injection H as -> end; cbn; congruence. }
    rewrite Q, Z.eqb_refl. eauto.
  - left. cbn [step]. unfold join_step. rewrite Ei. eauto.
  - left. cbn [step]. unfold join_step. rewrite Ei. destruct (is (state w) JOINED), (Z.eqb m (thread w)); eauto.
Qed.

(** For what fails: a waiter whom nobody will wake, and too many notifications. *)
Definition forgotten (w : world) (i : nat) : Prop :=
  (state w = JOINED \/ state w = FINALIZED) /\ current w = None /\ exists me, callers w i = Asleep me false \/ callers w i = Awake me false.
Lemma forgotten_step w i a w' e : forgotten w i -> is_start a = false -> step w a = Does w' e -> forgotten w' i.
Proof.
  intros (St & Cu & me & Ca) N E. unfold forgotten.
  assert (Wk : forall p, p = Asleep me false \/ p = Awake me false -> woken p = Asleep me false \/ woken p = Awake me false) by (intros p [-> | ->]; cbn; auto).
  destruct a as [c hd cr| |j m t|j|j|j| | | | | |how v| |]; cbn [step] in E; try (rewrite Cu in E; discriminate); [discriminate N| | | | | | |].
  - unfold do_notify in E. destruct St as [St|St]; rewrite St in E; [|discriminate]. assert (w' = w) by congruence. subst. eauto.
  - unfold join_begin in E. destruct (callers w j) eqn:Ej; try discriminate. assert (i <> j) by (intros ->; destruct Ca; congruence).
    destruct St as [St|St]; rewrite St in E; [|discriminate]. assert (w' = go w j (Look ERROR m)) by congruence. subst. split; [auto|]. split; [exact Cu|]. exists me. rewrite go_other by assumption. exact Ca.
  - unfold join_step in E. destruct (Nat.eq_dec j i) as [-> |Nj].
    + destruct Ca as [Ca|Ca]; rewrite Ca in E; [discriminate|]. destruct St as [St|St]; rewrite St in E; cbn [is] in E; assert (w' = go w i (Asleep me false)) by congruence; subst; (split; [auto|]; split; [exact Cu|]; exists me; left; apply go_same).
    + destruct (callers w j) as [|m t|m t|rc m|m t|m u|rc m]; try discriminate.
      * destruct St as [St|St]; rewrite St in E; cbn [is] in E; assert (w' = go w j (Asleep m t)) by congruence; subst; (split; [auto|]; split; [exact Cu|]; exists me; rewrite go_other by auto; exact Ca).
      * destruct St as [St|St]; rewrite St in E; cbn [is] in E; assert (w' = go w j (Last rc m)) by congruence; subst; (split; [auto|]; split; [exact Cu|]; exists me; rewrite go_other by auto; exact Ca).
      * rewrite Cu in E. discriminate.
      * assert (w' = signal (go (set_value (set_state w JOINED) u) j (Last 0 m))) by congruence. subst. split; [left; reflexivity|]. split; [exact Cu|]. exists me. cbn [signal callers]. apply Wk. rewrite go_other by auto. exact Ca.
      * assert (w' = go w j Out) by (destruct (is (state w) JOINED), (Z.eqb m (thread w)); congruence). subst. split; [exact St|]. split; [exact Cu|]. exists me. rewrite go_other by auto. exact Ca.
  - unfold spurious in E. destruct (callers w j) eqn:Ej; try discriminate. assert (w' = go w j (Awake me0 timed)) by congruence. subst. split; [exact St|]. split; [exact Cu|]. exists me.
    destruct (Nat.eq_dec j i) as [-> |Nj]; [rewrite go_same; right; destruct Ca; congruence|rewrite go_other by auto; exact Ca].
  - unfold timeout in E. assert (j <> i) by (intros ->; destruct Ca as [Ca|Ca]; rewrite Ca in E; discriminate).
    assert (exists p, w' = go w j p) as (p & ->) by (destruct (callers w j) as [|m []|m []| | | |]; try discriminate; injection E as E1 E2; eexists; symmetry; exact E1). split; [exact St|]. split; [exact Cu|]. exists me. rewrite go_other by auto. exact Ca.
  - unfold fini in E. destruct St as [St|St]; rewrite St in E.
    + assert (w' = signal (set_state w FINALIZED)) by congruence. subst. split; [right; reflexivity|]. split; [exact Cu|]. exists me. cbn [signal callers]. apply Wk. exact Ca.
    + assert (w' = w) by congruence. subst. eauto.
  - unfold get_state in E. assert (w' = w) by congruence. subst. eauto.
Qed.
Lemma forgotten_run l : forall w i w' es, forgotten w i -> forallb (fun a => negb (is_start a)) l = true -> run w l = Some (w', es) -> forgotten w' i.
Proof.
  induction l as [|a l IH]; intros w i w' es F N E; cbn [run] in E; [assert (w' = w) by congruence; subst; exact F|]. cbn [forallb] in N. apply andb_prop in N as (Na & N).
  destruct (step w a) as [w1 e| |] eqn:S; try discriminate. destruct (run w1 l) as [[w2 es2]|] eqn:E2; [|discriminate]. cbn [bind] in E. assert (w' = w2) by congruence. subst.
  apply (IH w1 i w2 es2); [|exact N|exact E2]. apply forgotten_step with (w := w) (a := a) (e := e); [exact F|destruct (is_start a); [discriminate|reflexivity]|exact S].
Qed.
Lemma run_app l1 : forall l2 w w1 es1 w2 es2, run w l1 = Some (w1, es1) -> run w1 l2 = Some (w2, es2) -> run w (l1 ++ l2) = Some (w2, es1 ++ es2).
Proof.
  induction l1 as [|a l IH]; intros l2 w w1 es1 w2 es2 E1 E2; cbn [run app] in *; [assert (w1 = w /\ es1 = []) as (-> & ->) by (split; congruence); exact E2|].
  destruct (step w a) as [w0 e| |]; try discriminate. destruct (run w0 l) as [[w3 es3]|] eqn:E; [|discriminate]. cbn [bind] in E1. assert (w3 = w1 /\ es1 = e :: es3) as (-> & ->) by (split; congruence).
  rewrite (IH l2 w0 w1 es3 w2 es2 E E2). reflexivity.
Qed.
Lemma many_notifications n : forall w, state w = STARTED -> notify w = false -> 0 <= notifications w -> notifications w + Z.of_nat n <= 2147483647 ->
  exists w', run w (repeat Notify n) = Some (w', repeat (Notified None) n) /\ state w' = STARTED /\ notify w' = false /\ notifications w' = notifications w + Z.of_nat n.
Proof.
  induction n as [|n IH]; intros w St No Ge Le; [exists w; repeat split; auto; lia|].
  assert (E : step w Notify = Does (signal (set_count w (notifications w + 1))) (Notified None)).
  { cbn [step]. unfold do_notify, ck_s32. rewrite St. destruct (Z.eqb_spec (notifications w) (-1)); [lia|]. destruct (Z.leb_spec (-2147483648) (notifications w + 1)), (Z.ltb_spec (notifications w + 1) 2147483648); try lia.
    cbn [andb signal set_count notify]. rewrite No. reflexivity. }
  destruct (IH (signal (set_count w (notifications w + 1)))) as (w' & R & S' & N' & C'); [exact St|exact No|cbn; lia|cbn; lia|]. exists w'. cbn [repeat run]. rewrite E, R. cbn [bind]. repeat split; auto. rewrite C'. cbn. lia.
Qed.
