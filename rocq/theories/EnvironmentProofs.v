From Coq Require Import ZArith List Bool Lia.
From Verif Require Import CInt CUtil ReaderwriterModel ReaderwriterSpec ReaderwriterProofs ReaderwriterProofs2 ReaderwriterProofs3 ReaderwriterProps EnvironmentModel EnvironmentSpec.
Import ListNotations.
Local Open Scope Z_scope.

(** * How a step of the lock concerns other threads *)

Definition wt (tr : list event) (t : Z) (r : role) : Prop := In (t, r) (pending tr) \/ In (t, r) (granted tr).
Definition has (tr : list event) (r : role) (t : Z) : Prop :=
  (r = READER /\ In t (readers tr)) \/ (r = WRITER /\ In t (writers tr)).

Lemma wt_waits tr s t r : inv tr s -> (wt tr t r <-> exists w, waits s t = Some (r, w)).
Proof.
  intros V. split.
  - intros [H|H]; [exact (V_pend _ _ V t r H)|]. destruct (V_grant _ _ V t r H) as (_ & _ & W). eauto.
  - intros (w & W). exact (V_waits _ _ V t r w W).
Qed.
Lemma none_wt tr s t : inv tr s -> (waits s t = None <-> forall r, ~ wt tr t r).
Proof.
  intros V. split.
  - intros W r H. apply (wt_waits _ _ _ _ V) in H as (w & H). congruence.
  - intros H. destruct (waits s t) as [(r & w)|] eqn:W; [|reflexivity]. exfalso. apply (H r). apply (wt_waits _ _ _ _ V). eauto.
Qed.

Definition about (t : Z) (e : event) : Prop :=
  match e with
  | Waits u _ _ | Begun u _ _ | Ended u _ _ => u = t
  | Grants _ _ => False
  | _ => True
  end.

Lemma remove_other t u l : u <> t -> In u l -> In u (remove_one t l).
Proof.
  intros N. induction l as [|x l IH]; [intros []|]. cbn [remove_one]. intros [H|H].
  - subst x. destruct (Z.eqb_spec u t); [contradiction|]. left. reflexivity.
  - destruct (Z.eqb_spec x t); [exact H|]. right. exact (IH H).
Qed.

Lemma has_about t u r es : u <> t -> Forall (fun e => about t e \/ exists x q, e = Grants x q) es -> forall tr, has tr r u -> has (tr ++ es) r u.
Proof.
  intros N. induction es as [|e es IH]; intros F tr H; [rewrite app_nil_r; exact H|].
  inversion F as [|? ? He Fe]; subst. replace (tr ++ e :: es) with ((tr ++ [e]) ++ es) by (rewrite <- app_assoc; reflexivity).
  apply IH; [exact Fe|]. unfold has in *. rewrite readers_app, writers_app. cbn [fold_left].
  destruct H as [(-> & H)|(-> & H)]; [left|right]; (split; [reflexivity|]).
  - destruct He as [He|(x & q & ->)]; [|exact H]. destruct e as [x q p|x q|x q v|x q v|v|v]; cbn [about note_reader] in *; try exact H; subst.
    + destruct q; try exact H. destruct v; try exact H. right. exact H.
    + destruct q; try exact H. apply remove_other; assumption.
  - destruct He as [He|(x & q & ->)]; [|exact H]. destruct e as [x q p|x q|x q v|x q v|v|v]; cbn [about note_writer] in *; try exact H; subst.
    + destruct q; try exact H. destruct v; try exact H. right. exact H.
    + destruct q; try exact H. apply remove_other; assumption.
Qed.

Lemma wt_about t u r es : u <> t -> Forall (about t) es -> forall tr, wt (tr ++ es) u r <-> wt tr u r.
Proof.
  intros N. induction es as [|e es IH]; intros F tr; [rewrite app_nil_r; reflexivity|].
  inversion F as [|? ? He Fe]; subst. replace (tr ++ e :: es) with ((tr ++ [e]) ++ es) by (rewrite <- app_assoc; reflexivity).
  rewrite (IH Fe). unfold wt. rewrite pending_app, granted_app. cbn [fold_left].
  destruct e as [x q p|x q|x q v|x q v|v|v]; cbn [about note_pending note_granted] in *; try reflexivity; try contradiction; subst.
  - destruct p; [cbn [In]|rewrite in_app_iff; cbn [In]]; split; intros H; intuition congruence.
  - rewrite !without_in. intuition.
Qed.

Lemma leading_in l x : In x (leading l) -> In x l.
Proof. induction l as [|(u, q) l IH]; [intros []|]. cbn [leading]. destruct q; try solve [intros []]. intros [H|H]; [left; exact H|right; exact (IH H)]. Qed.
Lemma batch_in l x : In x (next_batch l) -> In x l.
Proof.
  destruct l as [|(u, q) l]; [intros []|]. cbn [next_batch]. destruct q; try apply leading_in.
  intros [H|[]]. left. exact H.
Qed.

Lemma pend_grants A : forall P x, In x (fold_left note_pending (map grant A) P) <-> In x P /\ ~ In (fst x) (map fst A).
Proof.
  induction A as [|(u, q) A IH]; intros P (t & r); [cbn; intuition|].
  cbn [map fold_left grant fst snd note_pending]. rewrite IH. rewrite without_in. cbn [In fst]. intuition.
Qed.

Lemma nodup_left {A} (l m : list A) : NoDup (l ++ m) -> NoDup l.
Proof.
  induction l as [|x l IH]; [constructor|]. cbn [app]. intros N. inversion N as [|? ? N1 N2]; subst. constructor; [|exact (IH N2)].
  intros X. apply N1. apply in_or_app. left. exact X.
Qed.

Lemma pair_unique {A B} (l : list (A * B)) a b c : NoDup (map fst l) -> In (a, b) l -> In (a, c) l -> b = c.
Proof.
  induction l as [|(x, y) l IH]; [intros _ []|]. cbn [map fst]. intros N H1 H2. inversion N as [|? ? N1 N2]; subst.
  destruct H1 as [H1|H1], H2 as [H2|H2].
  - congruence.
  - injection H1 as -> ->. destruct N1. apply in_map_iff. exists (a, c). auto.
  - injection H2 as -> ->. destruct N1. apply in_map_iff. exists (a, b). auto.
  - exact (IH N2 H1 H2).
Qed.

Lemma wt_end tr A t r q u : NoDup (map fst (pending tr)) -> (forall x, In x A -> In x (pending tr)) ->
  (wt (tr ++ map grant A ++ [Ended t q 0]) u r <-> wt tr u r).
Proof.
  intros N S. unfold wt. rewrite pending_app, granted_app, !fold_left_app. cbn [fold_left note_pending note_granted].
  rewrite pend_grants, grant_grants, in_app_iff, <- in_rev. cbn [fst]. split.
  - intros [(H & _)|[H|H]]; auto.
  - intros [H|H]; [|auto]. destruct (in_dec Z.eq_dec u (map fst A)) as [I|I]; [|left; split; assumption].
    right. left. apply in_map_iff in I as ((x & q') & E & I). cbn in E. subst x.
    replace r with q'; [exact I|]. exact (pair_unique _ _ _ _ N (S _ I) H).
Qed.

(** One step of the lock that thread [t] takes, seen by the others. *)
Lemma others tr s a s' es t : inv tr s -> permitted tr s a -> step s a = Some (s', es) ->
  (match a with Begin x _ _ _ _ | Wake x _ | End x _ => x = t | _ => False end) ->
  inv (tr ++ es) s' /\
  forall u, u <> t -> (waits s u = None -> waits s' u = None) /\
    (forall r w, waits s u = Some (r, w) -> exists w', waits s' u = Some (r, w')) /\
    (forall r, has tr r u -> has (tr ++ es) r u).
Proof.
  intros V P E T. destruct (step_ok tr s a V P) as (s2 & es2 & E2 & V2 & A). rewrite E in E2. injection E2 as <- <-.
  split; [exact V2|]. intros u N.
  assert (W : forall r, wt (tr ++ es) u r <-> wt tr u r).
  { intros r. destruct a as [x q to pr node|x rc|x q|v|]; try contradiction; subst x; cbn [act_spec] in A.
    - apply (wt_about t u r es N). destruct A as (_ & [(-> & _)|[(v & _ & -> & _)|[(-> & _)|(v & _ & -> & _)]]]); repeat constructor.
    - apply (wt_about t u r es N). destruct A as (_ & q & [(_ & ->)|[(_ & _ & ->)|(v & _ & _ & _ & ->)]]); repeat constructor.
    - subst es. pose proof (V_nodup _ _ V) as ND. rewrite map_app in ND. apply nodup_left in ND.
      destruct (last_one tr).
      + apply wt_end; [exact ND|]. intros y. apply batch_in.
      + apply (wt_end tr [] t r q u ND). intros y []. }
  split; [|split].
  - intros H. apply (none_wt _ _ _ V2). intros r X. apply W in X. revert X. apply (none_wt _ _ _ V). exact H.
  - intros r w H. apply (wt_waits _ _ _ _ V2). apply W. apply (wt_waits _ _ _ _ V). eauto.
  - intros r. apply (has_about t u r es N).
    destruct a as [x q to pr node|x rc|x q|v|]; try contradiction; subst x; cbn [act_spec] in A.
    + destruct A as (_ & [(-> & _)|[(v & _ & -> & _)|[(-> & _)|(v & _ & -> & _)]]]); repeat constructor.
    + destruct A as (_ & q & [(_ & ->)|[(_ & _ & ->)|(v & _ & _ & _ & ->)]]); repeat constructor.
    + subst es. apply Forall_app. split; [|repeat constructor]. destruct (last_one tr); [|constructor].
      apply Forall_forall. intros e He. apply in_map_iff in He as ((x & y) & <- & _). right. exists x, y. reflexivity.
Qed.

(** * The invariant *)

Section library.
Context {E : Type}.
Variables (getenv_ : list Z -> E -> Z) (modify : op -> E -> E * Z).

Definition place (tr : list event) (lk : rw) (t : Z) (p : pc) : Prop :=
  match p with
  | Idle => waits lk t = None
  | Waiting o => exists w, waits lk t = Some (role_of o, w)
  | Holds o | Inside o | Leaving o _ => waits lk t = None /\ has tr (role_of o) t
  end.
Definition view (p : pc) : seen :=
  match p with
  | Idle => Out
  | Waiting o | Holds o | Inside o => In_ o
  | Leaving o r => Done o r
  end.

Record good (e0 : E) (tr : list event) (h : list note) (s : sys E) : Prop := Good {
  G_inv : inv tr (lock s);
  G_run : run tr (lock s);
  G_place : forall t, place tr (lock s) t (thread s t);
  G_inside : forall t r, In (t, r) (inside s) <-> exists o, thread s t = Inside o /\ r = modifies o;
  G_seen : forall t, sees t h (view (thread s t));
  G_env : sequential getenv_ modify e0 h = Some (env s)
}.

Lemma place_other tr es lk lk' u p :
  (waits lk u = None -> waits lk' u = None) /\
  (forall r w, waits lk u = Some (r, w) -> exists w', waits lk' u = Some (r, w')) /\
  (forall r, has tr r u -> has (tr ++ es) r u) ->
  place tr lk u p -> place (tr ++ es) lk' u p.
Proof.
  intros (H1 & H2 & H3). destruct p; cbn [place].
  - exact H1.
  - intros (w & W). exact (H2 _ _ W).
  - intros (A & B). split; auto.
  - intros (A & B). split; auto.
  - intros (A & B). split; auto.
Qed.

Definition of_thread (t : Z) (n : note) : Prop := match n with Called u _ | Effect u _ _ | Returned u _ _ => u = t end.
Lemma sees_others t u ns x : u <> t -> Forall (of_thread t) ns -> forall h, sees u h x -> sees u (h ++ ns) x.
Proof.
  intros N. induction ns as [|n ns IH]; intros F h H; [rewrite app_nil_r; exact H|].
  inversion F as [|? ? Hn Fn]; subst. replace (h ++ n :: ns) with ((h ++ [n]) ++ ns) by (rewrite <- app_assoc; reflexivity).
  apply IH; [exact Fn|]. apply S_other; [exact H|]. destruct n; cbn in *; congruence.
Qed.

Lemma sequential_app e h k : sequential getenv_ modify e (h ++ k) =
  match sequential getenv_ modify e h with Some e' => sequential getenv_ modify e' k | None => None end.
Proof.
  revert e. induction h as [|n h IH]; intros e; [reflexivity|]. cbn [app sequential].
  destruct n as [t o|t o r|t o r]; try apply IH.
  destruct o; match goal with |- context [if ?b then _ else _] => destruct b end; try reflexivity; apply IH.
Qed.

Lemma run_step tr s a s' es : run tr s -> permitted tr s a -> step s a = Some (s', es) -> run (tr ++ es) s'.
Proof. intros (l & X) P S. exists (l ++ [a]). exact (X_step _ _ _ _ _ _ _ _ X P S). Qed.

Lemma at_same f t p : at_pc f t p t = p.
Proof. unfold at_pc. rewrite Z.eqb_refl. reflexivity. Qed.
Lemma at_other f t p u : u <> t -> at_pc f t p u = f u.
Proof. intros N. unfold at_pc. destruct (Z.eqb_spec u t); [contradiction|reflexivity]. Qed.

Lemma role_of_rw o : role_of o = READER \/ role_of o = WRITER.
Proof. destruct o; cbn; auto. Qed.

(** A step of the lock by a thread that is not in the C library, before and after. *)
Lemma lock_step e0 tr h s a lk es t p ns e :
  good e0 tr h s -> permitted tr (lock s) a -> step (lock s) a = Some (lk, es) ->
  (match a with Begin x _ _ _ _ | Wake x _ | End x _ => x = t | _ => False end) ->
  (forall o, thread s t <> Inside o) -> (forall o, p <> Inside o) ->
  place (tr ++ es) lk t p -> Forall (of_thread t) ns -> sees t (h ++ ns) (view p) ->
  sequential getenv_ modify (env s) ns = Some e ->
  good e0 (tr ++ es) (h ++ ns) (Sys lk e (at_pc (thread s) t p) (inside s)).
Proof.
  intros [GI GR GP GN GS GE] P S T NB NA PL OF SE SQ. destruct (others tr (lock s) a lk es t GI P S T) as (V & O). constructor; cbn [lock env thread inside].
  - exact V.
  - exact (run_step _ _ _ _ _ GR P S).
  - intros u. destruct (Z.eq_dec u t) as [->|N]; [rewrite at_same; exact PL|]. rewrite at_other by exact N.
    exact (place_other tr es (lock s) lk u _ (O u N) (GP u)).
  - intros u r. rewrite GN. destruct (Z.eq_dec u t) as [->|N].
    + rewrite at_same. split; intros (o & X & _); [destruct (NB o X)|destruct (NA o X)].
    + rewrite at_other by exact N. reflexivity.
  - intros u. destruct (Z.eq_dec u t) as [->|N]; [rewrite at_same; exact SE|]. rewrite at_other by exact N.
    apply (sees_others t u ns _ N OF). apply GS.
  - rewrite sequential_app, GE. exact SQ.
Qed.

Lemma has_begun tr t r : r = READER \/ r = WRITER -> has (tr ++ [Begun t r 0]) r t.
Proof. intros [->| ->]; [left|right]; (split; [reflexivity|]); [rewrite readers_app|rewrite writers_app]; left; reflexivity. Qed.

Lemma failure_fails o : fails o (failure o).
Proof. destruct o; reflexivity. Qed.

Lemma start_good e0 : good e0 [] [] (Sys init e0 (fun _ => Idle) []).
Proof.
  constructor; cbn [lock env thread inside].
  - exact init_inv.
  - exists []. constructor.
  - intros t. cbn [place]. apply (none_wt _ _ _ init_inv). intros r [H|H]; exact H.
  - intros t r. split; [intros []|intros (o & H & _); discriminate].
  - intros t. constructor.
  - reflexivity.
Qed.

Lemma none_after tr es lk t v r : inv (tr ++ es) lk -> es = [Begun t r v] -> waits lk t = None.
Proof.
  intros V ->. apply (none_wt _ _ _ V). intros q. unfold wt. rewrite pending_app, granted_app. cbn [fold_left note_pending note_granted].
  rewrite !without_in. intuition.
Qed.

Lemma step_good e0 tr h s m : good e0 tr h s -> may tr s m ->
  exists s' es n, estep getenv_ modify s m = Some (s', es, n) /\ good e0 (tr ++ es) (h ++ n) s'.
Proof.
  intros G M. pose proof (G_inv _ _ _ _ G) as GI. pose proof (G_place _ _ _ _ G) as GP. pose proof (G_seen _ _ _ _ G) as GS.
  destruct m as [t o node|t rc|t|t|t]; cbn [may] in M.
  - (* Call *)
    destruct M as (TI & LI). pose proof (GP t) as PT. rewrite TI in PT. cbn [place] in PT. pose proof (GS t) as ST. rewrite TI in ST. cbn [view] in ST.
    assert (P : permitted tr (lock s) (Begin t (role_of o) INFINITY false node)) by (split; [apply role_of_rw|split; assumption]).
    assert (NB : forall q, thread s t <> Inside q) by (intros q; rewrite TI; discriminate).
    destruct (step_ok _ _ _ GI P) as (lk & es & S & V & A). cbn [estep]. rewrite S. cbn [bind]. cbn [act_spec] in A. destruct A as (_ & A).
    destruct A as [(-> & _)|[(v & NZ & -> & _)|[(-> & _)|(v & _ & _ & _ & X)]]]; [| | |discriminate]; unfold after_begin; cbn [begun_value].
    + eexists _, _, _. split; [reflexivity|]. eapply lock_step; try eassumption; try reflexivity; try (intros; discriminate).
      * cbn [place]. split; [exact (none_after _ _ _ _ _ _ V eq_refl)|]. apply has_begun. apply role_of_rw.
      * repeat constructor.
      * apply S_call. exact ST.
    + destruct (Z.eqb_spec v 0); [contradiction|]. eexists _, _, _. split; [reflexivity|]. eapply lock_step; try eassumption; try reflexivity; try (intros; discriminate).
      * cbn [place]. exact (none_after _ _ _ _ _ _ V eq_refl).
      * repeat constructor.
      * replace (h ++ [Called t o; Returned t o (failure o)]) with ((h ++ [Called t o]) ++ [Returned t o (failure o)]) by (rewrite <- app_assoc; reflexivity).
        cbn [view]. apply S_fail; [apply S_call; exact ST|apply failure_fails].
    + eexists _, _, _. split; [reflexivity|]. eapply lock_step; try eassumption; try reflexivity; try (intros; discriminate).
      * cbn [place]. apply (wt_waits _ _ _ _ V). left. rewrite pending_app. cbn [fold_left note_pending]. apply in_or_app. right. left. reflexivity.
      * repeat constructor.
      * apply S_call. exact ST.
  - (* Resume *)
    destruct M as (o & TI). pose proof (GP t) as PT. rewrite TI in PT. cbn [place] in PT. pose proof (GS t) as ST. rewrite TI in ST. cbn [view] in ST.
    destruct PT as (w & PT). assert (P : permitted tr (lock s) (Wake t rc)) by (cbn [permitted]; congruence).
    assert (NB : forall q, thread s t <> Inside q) by (intros q; rewrite TI; discriminate).
    destruct (step_ok _ _ _ GI P) as (lk & es & S & V & A). cbn [estep]. rewrite TI, S. cbn [bind]. cbn [act_spec] in A. destruct A as (_ & r & A).
    assert (RR : forall q, wt tr t q -> q = role_of o).
    { intros q H. apply (wt_waits _ _ _ _ GI) in H as (w' & H). congruence. }
    destruct A as [(I & ->)|[(I & _ & ->)|(v & NZ & I & _ & ->)]]; unfold after_begin; cbn [begun_value].
    + assert (r = role_of o) by (apply RR; right; exact I). subst r.
      eexists _, _, _. split; [reflexivity|]. eapply lock_step; try eassumption; try reflexivity; try (intros; discriminate).
      * cbn [place]. split; [exact (none_after _ _ _ _ _ _ V eq_refl)|]. apply has_begun. apply role_of_rw.
      * constructor.
      * rewrite app_nil_r. exact ST.
    + assert (r = role_of o) by (apply RR; left; exact I). subst r.
      eexists _, _, _. split; [reflexivity|]. eapply lock_step; try eassumption; try reflexivity; try (intros; discriminate).
      * cbn [place]. apply (wt_waits _ _ _ _ V). rewrite app_nil_r. left. exact I.
      * constructor.
      * rewrite app_nil_r. exact ST.
    + destruct (Z.eqb_spec v 0); [contradiction|]. eexists _, _, _. split; [reflexivity|]. eapply lock_step; try eassumption; try reflexivity; try (intros; discriminate).
      * cbn [place]. exact (none_after _ _ _ _ _ _ V eq_refl).
      * repeat constructor.
      * cbn [view]. apply S_fail; [exact ST|apply failure_fails].
  - (* Enter *)
    destruct M as (o & TI). pose proof (GP t) as PT. rewrite TI in PT. cbn [place] in PT. pose proof (GS t) as ST. rewrite TI in ST. cbn [view] in ST.
    destruct PT as (PW & PH). cbn [estep]. rewrite TI.
    assert (C : existsb (conflicts (modifies o)) (inside s) = false).
    { destruct (existsb (conflicts (modifies o)) (inside s)) eqn:X; [exfalso|reflexivity].
      apply existsb_exists in X as ((u & q) & I & X). unfold conflicts in X. cbn [snd] in X.
      apply (G_inside _ _ _ _ G) in I as (o' & TU & ->). pose proof (GP u) as PU. rewrite TU in PU. cbn [place] in PU. destruct PU as (_ & HU).
      assert (NE : u <> t) by (intros ->; congruence).
      destruct (C20_exclusion tr (lock s) (G_run _ _ _ _ G)) as ([WE|(x & WE & RE)] & _).
      - destruct PH as [(R1 & _)|(_ & Y)]; [|rewrite WE in Y; exact Y]. destruct HU as [(R2 & _)|(_ & Y)]; [|rewrite WE in Y; exact Y].
        destruct o; try discriminate; destruct o'; discriminate.
      - destruct PH as [(_ & Y)|(_ & Y)]; [rewrite RE in Y; exact Y|]. destruct HU as [(_ & Z)|(_ & Z)]; [rewrite RE in Z; exact Z|].
        rewrite WE in Y, Z. destruct Y as [Y|[]], Z as [Z|[]]. congruence. }
    rewrite C. eexists _, _, _. split; [reflexivity|]. rewrite !app_nil_r.
    destruct G as [_ GR _ GN _ GE]. constructor; cbn [lock env thread inside]; try assumption.
    + intros u. destruct (Z.eq_dec u t) as [->|N]; [rewrite at_same; cbn [place]; auto|]. rewrite at_other by exact N. apply GP.
    + intros u q. cbn [In]. rewrite GN. destruct (Z.eq_dec u t) as [->|N].
      * rewrite at_same. rewrite TI. split.
        -- intros [H|(x & H & _)]; [|discriminate]. injection H as <-. eauto.
        -- intros (x & H & ->). injection H as <-. left. reflexivity.
      * rewrite at_other by exact N. split; [intros [H|H]; [congruence|exact H]|auto].
    + intros u. destruct (Z.eq_dec u t) as [->|N]; [rewrite at_same; exact ST|]. rewrite at_other by exact N. apply GS.
  - (* Exit *)
    destruct M as (o & TI). pose proof (GP t) as PT. rewrite TI in PT. cbn [place] in PT. pose proof (GS t) as ST. rewrite TI in ST. cbn [view] in ST.
    cbn [estep]. rewrite TI. destruct (library getenv_ modify o (env s)) as (e & r) eqn:L.
    eexists _, _, _. split; [reflexivity|]. rewrite app_nil_r.
    destruct G as [_ GR _ GN _ GE]. constructor; cbn [lock env thread inside]; try assumption.
    + intros u. destruct (Z.eq_dec u t) as [->|N]; [rewrite at_same; cbn [place]; exact PT|]. rewrite at_other by exact N. apply GP.
    + intros u q. rewrite filter_In, GN. cbn [fst]. destruct (Z.eq_dec u t) as [->|N].
      * rewrite at_same, Z.eqb_refl. split; [intros (_ & H); discriminate|intros (x & H & _); discriminate].
      * rewrite at_other by exact N. destruct (Z.eqb_spec u t); [contradiction|]. cbn [negb]. intuition.
    + intros u. destruct (Z.eq_dec u t) as [->|N].
      * rewrite at_same. cbn [view]. apply S_effect. exact ST.
      * rewrite at_other by exact N. apply (sees_others t u _ _ N); [repeat constructor|apply GS].
    + rewrite sequential_app, GE. cbn [sequential]. unfold library in L.
      destruct o; [injection L as <- <-; rewrite Z.eqb_refl; reflexivity|..]; rewrite L; cbn [fst snd]; rewrite Z.eqb_refl; reflexivity.
  - (* Return *)
    destruct M as (o & r & TI). pose proof (GP t) as PT. rewrite TI in PT. cbn [place] in PT. pose proof (GS t) as ST. rewrite TI in ST. cbn [view] in ST.
    destruct PT as (PW & PH). assert (P : permitted tr (lock s) (End t (role_of o))) by (split; assumption).
    assert (NB : forall q, thread s t <> Inside q) by (intros q; rewrite TI; discriminate).
    destruct (step_ok _ _ _ GI P) as (lk & es & S & V & A). cbn [estep]. rewrite TI, S. cbn [bind]. cbn [act_spec] in A.
    eexists _, _, _. split; [reflexivity|]. eapply lock_step; try eassumption; try reflexivity; try (intros; discriminate).
    + cbn [place]. apply (none_wt _ _ _ V). intros q. subst es.
      pose proof (V_nodup _ _ GI) as ND. rewrite map_app in ND. apply nodup_left in ND.
      assert (W : wt (tr ++ (if last_one tr then map grant (next_batch (pending tr)) else []) ++ [Ended t (role_of o) 0]) t q <-> wt tr t q).
      { destruct (last_one tr); [apply wt_end; [exact ND|intros y; apply batch_in]|apply (wt_end tr [] t q (role_of o) t ND); intros y []]. }
      rewrite W. apply (none_wt _ _ _ GI). exact PW.
    + repeat constructor.
    + cbn [view]. apply S_return. exact ST.
Qed.

Lemma execution_good e0 tr h s : execution getenv_ modify e0 tr h s -> good e0 tr h s.
Proof.
  induction 1 as [|tr h s m s' es n X IH M S]; [apply start_good|].
  destruct (step_good e0 tr h s m IH M) as (s2 & es2 & n2 & S2 & G). rewrite S in S2. injection S2 as <- <- <-. exact G.
Qed.
End library.

Lemma may_ok {E} tr (s : sys E) m : may_b tr s m = true -> may tr s m.
Proof.
  destruct m as [t o node|t rc|t|t|t]; cbn [may_b may]; try (destruct (thread s t); try discriminate; eauto).
  intros H. apply andb_true_iff in H as (_ & H). apply Z.ltb_lt in H. auto.
Qed.
Lemma eplay_ok {E} getenv_ modify (e0 : E) : forall l tr h s r,
  execution getenv_ modify e0 tr h s -> eplay getenv_ modify tr h s l = Some r -> execution getenv_ modify e0 (fst (fst r)) (snd (fst r)) (snd r).
Proof.
  induction l as [|m l IH]; intros tr h s r X P; cbn [eplay] in P; [injection P as <-; exact X|].
  destruct (may_b tr s m) eqn:M; [|discriminate]. destruct (estep getenv_ modify s m) as [[[s' es] n]|] eqn:S; [|discriminate].
  apply (IH (tr ++ es) (h ++ n) s' r); [|exact P]. exact (E_step _ _ _ _ _ _ _ _ _ _ X (may_ok _ _ _ M) S).
Qed.

(** * Who has the lock *)

Definition section_of (p : pc) : option role :=
  match p with Holds o | Inside o | Leaving o _ => Some (role_of o) | _ => None end.
Definition owners {E} (tr : list event) (s : sys E) : Prop :=
  NoDup (readers tr) /\ NoDup (writers tr) /\
  (forall t, In t (readers tr) <-> section_of (thread s t) = Some READER) /\
  (forall t, In t (writers tr) <-> section_of (thread s t) = Some WRITER).

Lemma remove_in t l : NoDup l -> NoDup (remove_one t l) /\ forall u, In u (remove_one t l) <-> In u l /\ u <> t.
Proof.
  induction l as [|x l IH]; intros N; [split; [constructor|cbn; tauto]|].
  inversion N as [|? ? N1 N2]; subst. destruct (IH N2) as (I1 & I2). cbn [remove_one]. destruct (Z.eqb_spec x t) as [->|NE].
  - split; [exact N2|]. intros u. cbn [In]. split; [intros H; split; [auto|intros ->; contradiction]|intros ([H|H] & K); [congruence|exact H]].
  - split; [constructor; [rewrite I2; tauto|exact I1]|]. intros u. cbn [In]. rewrite I2. split; [intros [H|(H & K)]; subst; auto|intros ([H|H] & K); auto].
Qed.

Lemma own_same {E} tr (s s' : sys E) es : owners tr s ->
  readers (tr ++ es) = readers tr -> writers (tr ++ es) = writers tr ->
  (forall t, section_of (thread s' t) = section_of (thread s t)) -> owners (tr ++ es) s'.
Proof.
  intros (A & B & C & D) R W T. unfold owners. rewrite R, W. repeat split; auto; intros; rewrite ?T in *; [apply C|apply C|apply D|apply D]; assumption.
Qed.

Lemma own_begun {E} tr (s s' : sys E) t o : owners tr s -> section_of (thread s t) = None ->
  section_of (thread s' t) = Some (role_of o) -> (forall u, u <> t -> thread s' u = thread s u) ->
  owners (tr ++ [Begun t (role_of o) 0]) s'.
Proof.
  intros (A & B & C & D) N S T. unfold owners. rewrite readers_app, writers_app. cbn [fold_left].
  assert (NR : ~ In t (readers tr)) by (rewrite C; congruence). assert (NW : ~ In t (writers tr)) by (rewrite D; congruence).
  destruct (role_of_rw o) as [R|R]; rewrite R in *; cbn [note_reader note_writer].
  - repeat split; auto.
    + constructor; assumption.
    + intros [H|H]; [subst; exact S|]. destruct (Z.eq_dec t0 t) as [->|NE]; [contradiction|]. rewrite T by exact NE. apply C. exact H.
    + intros H. destruct (Z.eq_dec t0 t) as [->|NE]; [left; reflexivity|]. right. rewrite T in H by exact NE. apply C. exact H.
    + intros H. destruct (Z.eq_dec t0 t) as [->|NE]; [contradiction|]. rewrite T by exact NE. apply D. exact H.
    + intros H. destruct (Z.eq_dec t0 t) as [->|NE]; [congruence|]. rewrite T in H by exact NE. apply D. exact H.
  - repeat split; auto.
    + constructor; assumption.
    + intros H. destruct (Z.eq_dec t0 t) as [->|NE]; [contradiction|]. rewrite T by exact NE. apply C. exact H.
    + intros H. destruct (Z.eq_dec t0 t) as [->|NE]; [congruence|]. rewrite T in H by exact NE. apply C. exact H.
    + intros [H|H]; [subst; exact S|]. destruct (Z.eq_dec t0 t) as [->|NE]; [contradiction|]. rewrite T by exact NE. apply D. exact H.
    + intros H. destruct (Z.eq_dec t0 t) as [->|NE]; [left; reflexivity|]. right. rewrite T in H by exact NE. apply D. exact H.
Qed.

Lemma grants_silent A : forall tr, readers (tr ++ map grant A) = readers tr /\ writers (tr ++ map grant A) = writers tr.
Proof.
  intros tr. rewrite readers_app, writers_app. generalize (readers tr), (writers tr).
  induction A as [|(u, q) A IH]; intros R W; [split; reflexivity|]. cbn [map fold_left]. apply IH.
Qed.

Lemma own_ended {E} tr (s s' : sys E) t o A : owners tr s -> section_of (thread s t) = Some (role_of o) ->
  section_of (thread s' t) = None -> (forall u, u <> t -> thread s' u = thread s u) ->
  owners (tr ++ map grant A ++ [Ended t (role_of o) 0]) s'.
Proof.
  intros (B1 & B2 & C & D) S N T. rewrite app_assoc. unfold owners. rewrite readers_app, writers_app.
  rewrite (proj1 (grants_silent A tr)), (proj2 (grants_silent A tr)). cbn [fold_left].
  destruct (remove_in t (readers tr) B1) as (R1 & R2). destruct (remove_in t (writers tr) B2) as (W1 & W2).
  destruct (role_of_rw o) as [R|R]; rewrite R in *; cbn [note_reader note_writer].
  - repeat split; auto; intros H.
    + apply R2 in H as (H & NE). rewrite T by exact NE. apply C. exact H.
    + destruct (Z.eq_dec t0 t) as [->|NE]; [congruence|]. rewrite T in H by exact NE. apply R2. split; [apply C; exact H|exact NE].
    + destruct (Z.eq_dec t0 t) as [->|NE]; [apply D in H; congruence|]. rewrite T by exact NE. apply D. exact H.
    + destruct (Z.eq_dec t0 t) as [->|NE]; [congruence|]. rewrite T in H by exact NE. apply D. exact H.
  - repeat split; auto; intros H.
    + destruct (Z.eq_dec t0 t) as [->|NE]; [apply C in H; congruence|]. rewrite T by exact NE. apply C. exact H.
    + destruct (Z.eq_dec t0 t) as [->|NE]; [congruence|]. rewrite T in H by exact NE. apply C. exact H.
    + apply W2 in H as (H & NE). rewrite T by exact NE. apply D. exact H.
    + destruct (Z.eq_dec t0 t) as [->|NE]; [congruence|]. rewrite T in H by exact NE. apply W2. split; [apply D; exact H|exact NE].
Qed.

Lemma at_section {E} (s s' : sys E) t p : thread s' = at_pc (thread s) t p -> section_of p = section_of (thread s t) ->
  forall u, section_of (thread s' u) = section_of (thread s u).
Proof. intros -> H u. unfold at_pc. destruct (Z.eqb_spec u t); [subst; exact H|reflexivity]. Qed.

Lemma execution_owners {E} getenv_ modify (e0 : E) tr h s : execution getenv_ modify e0 tr h s -> owners tr s.
Proof.
  induction 1 as [|tr h s m s' es n X IH M S].
  - unfold owners. change (readers []) with (@nil Z). change (writers []) with (@nil Z). split; [constructor|]. split; [constructor|].
    split; intros t; (split; [intros []|intros H; discriminate H]).
  - pose proof (execution_good _ _ _ _ _ _ X) as G. pose proof (G_inv _ _ _ _ _ _ G) as GI. pose proof (G_place _ _ _ _ _ _ G) as GP.
    destruct m as [t o node|t rc|t|t|t]; cbn [may] in M; cbn [estep] in S.
    + destruct M as (TI & LI). pose proof (GP t) as PT. rewrite TI in PT. cbn [place] in PT.
      assert (P : permitted tr (lock s) (Begin t (role_of o) INFINITY false node)) by (split; [apply role_of_rw|split; assumption]).
      destruct (step_ok _ _ _ GI P) as (lk & es2 & S2 & V & A). rewrite S2 in S. cbn [bind act_spec] in *. destruct A as (_ & A).
      destruct A as [(-> & _)|[(v & NZ & -> & _)|[(-> & _)|(v & _ & _ & _ & Y)]]]; [| | |discriminate]; unfold after_begin in S; cbn [begun_value] in S.
      * injection S as <- <- <-. apply (own_begun tr s); cbn [thread]; auto; [rewrite TI; reflexivity|rewrite at_same; reflexivity|intros; apply at_other; assumption].
      * destruct (Z.eqb_spec v 0); [contradiction|]. injection S as <- <- <-. destruct (trace_fail tr t (role_of o) v NZ) as (F1 & F2). apply (own_same tr s); auto. eapply at_section; [reflexivity|]. rewrite TI. reflexivity.
      * injection S as <- <- <-. apply (own_same tr s); auto; [rewrite readers_app|rewrite writers_app|]; try reflexivity. eapply at_section; [reflexivity|]. rewrite TI. reflexivity.
    + destruct M as (o & TI). pose proof (GP t) as PT. rewrite TI in PT. cbn [place] in PT. destruct PT as (w & PT).
      assert (P : permitted tr (lock s) (Wake t rc)) by (cbn [permitted]; congruence).
      destruct (step_ok _ _ _ GI P) as (lk & es2 & S2 & V & A). rewrite TI, S2 in S. cbn [bind act_spec] in *. destruct A as (_ & r & A).
      assert (RR : forall q, wt tr t q -> q = role_of o) by (intros q H; apply (wt_waits _ _ _ _ GI) in H as (w' & H); congruence).
      destruct A as [(I & ->)|[(I & _ & ->)|(v & NZ & I & _ & ->)]]; unfold after_begin in S; cbn [begun_value] in S.
      * assert (r = role_of o) by (apply RR; right; exact I). subst r. injection S as <- <- <-.
        apply (own_begun tr s); cbn [thread]; auto; [rewrite TI; reflexivity|rewrite at_same; reflexivity|intros; apply at_other; assumption].
      * injection S as <- <- <-. apply (own_same tr s); auto; try (rewrite app_nil_r; reflexivity). eapply at_section; [reflexivity|]. rewrite TI. reflexivity.
      * destruct (Z.eqb_spec v 0); [contradiction|]. injection S as <- <- <-. destruct (trace_fail tr t r v NZ) as (F1 & F2). apply (own_same tr s); auto. eapply at_section; [reflexivity|]. rewrite TI. reflexivity.
    + destruct M as (o & TI). rewrite TI in S. destruct (existsb _ _); [discriminate|]. injection S as <- <- <-.
      apply (own_same tr s); auto; try (rewrite app_nil_r; reflexivity). eapply at_section; [reflexivity|]. rewrite TI. reflexivity.
    + destruct M as (o & TI). rewrite TI in S. destruct (library _ _ _ _) as (e & r). injection S as <- <- <-.
      apply (own_same tr s); auto; try (rewrite app_nil_r; reflexivity). eapply at_section; [reflexivity|]. rewrite TI. reflexivity.
    + destruct M as (o & r & TI). pose proof (GP t) as PT. rewrite TI in PT. cbn [place] in PT. destruct PT as (PW & PH).
      assert (P : permitted tr (lock s) (End t (role_of o))) by (split; assumption).
      destruct (step_ok _ _ _ GI P) as (lk & es2 & S2 & V & A). rewrite TI, S2 in S. cbn [bind act_spec] in *. injection S as <- <- <-. subst es2.
      assert (O : forall A, owners (tr ++ map grant A ++ [Ended t (role_of o) 0]) (Sys lk (env s) (at_pc (thread s) t Idle) (inside s))).
      { intros A. apply (own_ended tr s); cbn [thread]; auto; [rewrite TI; reflexivity|rewrite at_same; reflexivity|intros; apply at_other; assumption]. }
      destruct (last_one tr); [apply O|apply (O [])].
Qed.
