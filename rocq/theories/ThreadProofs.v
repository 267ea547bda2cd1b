(** The invariant of a thread object and its callers. *)

From Coq Require Import ZArith List Bool Arith Lia.
From Verif Require Import CUtil CInt ThreadModel ThreadSpec.
Import ListNotations.
Local Open Scope Z_scope.

Definition living (w : world) (r : ref) : Prop :=
  match l_life r with
  | Unborn f => state w = (if f then FAILED else INITIALIZED) /\ current w = None
  | Alive c h p =>
      state w = (match p with Begun => STARTED | _ => RUNNING end) /\ context w = c /\ thread w = h /\
      current w = Some (Worker h (match p with Begun => Created | Underway => Ready | InFunction => Inside end))
  | Over v h shows =>
      thread w = h /\ exists how, (how = Return -> value w = v) /\
      if shows then state w = EXITING /\ (current w = Some (Worker h (Left how v)) \/ how = Exit /\ current w = Some (Worker h (Again v)))
      else state w = RUNNING /\ current w = Some (Worker h (Leaving how v))
  | Terminated v h => state w = EXITING /\ thread w = h /\ (current w = Some (Worker h (Dead v)) \/ current w = None)
  | Past v => state w = JOINED /\ value w = v /\ current w = None
  | NoMore => state w = FINALIZED /\ current w = None
  end.
Definition placed (w : world) (r : ref) (me : Z) (timed : bool) (p : place) : Prop :=
  match p with
  | Out => False
  | Asleep me' timed' => me' = me /\ timed' = timed /\ me <> thread w /\ current w <> None /\ (state w = STARTED \/ state w = RUNNING)
  | Awake me' timed' => me' = me /\ timed' = timed /\ me <> thread w /\ current w <> None
  | Look rc me' =>
      me' = me /\
      (rc = 0 /\ state w = EXITING /\ current w <> None /\ me <> thread w \/
       rc = TIMEDOUT /\ timed = true /\ current w <> None /\ me <> thread w \/
       rc = ERROR /\ (me = thread w \/ state w = INITIALIZED \/ state w = FAILED \/ state w = EXITING \/ state w = JOINED) /\ (state w = EXITING -> current w <> None))
  | InJoin me' target => me' = me /\ target = thread w /\ me <> thread w /\ state w = EXITING /\ current w <> None
  | Reaped me' v => me' = me /\ me <> thread w /\ state w = EXITING /\ current w = None /\ exists h, l_life r = Terminated v h
  | Last rc me' =>
      me' = me /\ (state w = EXITING -> current w <> None) /\
      (rc = 0 /\ state w = JOINED \/
       rc = TIMEDOUT /\ timed = true /\ current w <> None \/
       rc = ERROR /\ (me = thread w \/ state w = INITIALIZED \/ state w = FAILED \/ state w = JOINED))
  end.
Record rel (signals : bool) (last : Z) (w : world) (r : ref) : Prop := {
  config : notify w = signals;
  latest : thread w = last;
  counted : notifications w = pending r;
  bounded : 0 <= pending r <= 2147483647;
  lives : living w r;
  places : match joining r with
           | None => (forall j, callers w j = Out) /\ (state w = EXITING -> current w <> None)
           | Some (i, me, timed) => (forall j, j <> i -> callers w j = Out) /\ placed w r me timed (callers w i)
           end }.

Lemma go_same w i p : callers (go w i p) i = p.
Proof. cbn. rewrite Nat.eqb_refl. reflexivity. Qed.
Lemma go_other w i p j : j <> i -> callers (go w i p) j = callers w j.
Proof. intros H. cbn. destruct (Nat.eqb_spec j i); [contradiction|reflexivity]. Qed.

Ltac split_all := repeat match goal with H : _ /\ _ |- _ => destruct H | H : exists _, _ |- _ => destruct H end.
Ltac facts := repeat match goal with
  | H : _ /\ _ |- _ => destruct H
  | H : exists _, _ |- _ => destruct H
  | H : _ \/ _ |- _ => destruct H
  end.

(** What is seen by one step, and what comes of it. *)
Definition good (signals : bool) (last : Z) (r : ref) (o : outcome) : Prop :=
  match o with
  | Does w' e => exists r', observe signals (newest last e) r e = Some r' /\ rel signals (newest last e) w' r'
  | Disabled => True
  | Undefined => False
  end.


Ltac open_all :=
  match goal with R : rel _ _ ?w ?r |- _ =>
    let st := fresh "st" in let cx := fresh "cx" in let va := fresh "va" in let no := fresh "no" in let th := fresh "th" in
    let nt := fresh "nt" in let cu := fresh "cu" in let ca := fresh "ca" in let li := fresh "li" in let pe := fresh "pe" in let jo := fresh "jo" in
    destruct w as [st cx va no th nt cu ca]; destruct r as [li pe jo]; destruct R as [C La Co Bo Li Pl];
    unfold living in Li; cbn [notify thread notifications pending l_life joining state current callers value context] in *; subst nt th no
  end.
Ltac by_life :=
  match goal with Li : match ?l with _ => _ end |- _ =>
    let c := fresh "c" in let h := fresh "h" in let p := fresh "p" in let v := fresh "v" in let sh := fresh "sh" in
    destruct l as [[|]|c h [| |]|v h [|]|v h|v|]; split_all; subst
  end;
  repeat match goal with H : _ \/ _ |- _ => destruct H; split_all; subst end.
Ltac by_place :=
  match goal with Pl : match ?jo with _ => _ end |- _ =>
    let i := fresh "i" in let me := fresh "me" in let timed := fresh "timed" in let O := fresh "Others" in let P := fresh "Here" in let E := fresh "Ep" in
    destruct jo as [[[i me] timed]|]; destruct Pl as (O & P);
    [match type of P with placed _ _ _ _ (?ca i) => destruct (ca i) eqn:E; cbn [placed state current thread l_life] in P; split_all; subst end|]
  end.
Ltac fin :=
  try assumption; try congruence; try lia; try reflexivity;
  match goal with
  | |- forall j, _ <> _ -> _ => let j := fresh "j" in let N := fresh "N" in intros j N; cbn;
      try (rewrite (proj2 (Nat.eqb_neq j _) N)); repeat match goal with O : forall j, j <> _ -> _ |- _ => rewrite (O j N) end; try reflexivity; repeat match goal with O : forall j, _ j = Out |- _ => rewrite (O j) end; reflexivity
  | |- forall j, _ => let j := fresh "j" in intros j; cbn; repeat match goal with O : forall j, _ j = Out |- _ => rewrite (O j) end; reflexivity
  | |- _ => idtac
  end.
Ltac prove_rel :=
  constructor; unfold living; cbn [signal go set_state set_value set_count set_current notify thread notifications pending l_life joining state current callers value context handle at_];
  [reflexivity|reflexivity|try reflexivity; try lia|try lia| |].

Lemma start_good signals last w r c handler create : rel signals last w r -> permitted r (Start c handler create) = true -> good signals last r (start w c handler create).
Proof.
  intros R P. open_all. cbn in P. destruct jo as [j|]; [discriminate|]. destruct Pl as (Os & X). unfold start. cbn [state notify current thread callers handle].
  by_life; try discriminate; cbn [good newest observe startable l_life pending joining andb negb is];
  try (eexists; split; [reflexivity|prove_rel; [eauto 8|split; fin]]).
  all: destruct signals, handler; cbn [andb negb good newest observe l_life startable];
    try (eexists; split; [reflexivity|prove_rel; [eauto 8|split; fin]]);
    destruct create; cbn [good newest observe l_life startable]; (eexists; split; [reflexivity|prove_rel; [eauto 8|split; fin]]).
Qed.

Lemma notify_good signals last w r : rel signals last w r -> permitted r Notify = true -> good signals last r (do_notify w).
Proof.
  intros R P. open_all. cbn in P. unfold do_notify. cbn [state notifications].
  assert (K : Z.eqb pe (-1) = false) by lia.
  assert (Q : li <> NoMore -> ck_s32 (pe + 1) = Some (pe + 1)) by (intros N; unfold ck_s32; destruct li; try congruence; destruct (Z.leb_spec (-2147483648) (pe + 1)), (Z.ltb_spec (pe + 1) 2147483648); cbn; try reflexivity; lia).
  by_life; try discriminate; rewrite ?K, ?Q by discriminate; cbn [set_count signal state notify current thread callers handle at_ context value notifications];
  rewrite ?Z.eqb_refl; try destruct signals; cbn [good newest observe l_life reached pending joining andb]; rewrite ?Z.eqb_refl;
  (eexists; split; [reflexivity|]); by_place; prove_rel; try (eauto 9); try (split; fin); try rewrite ?Ep; cbn [woken placed state current thread l_life]; intuition (try congruence; eauto).
Qed.

Ltac pick := solve [eauto | intros; congruence | split; pick | left; pick | right; pick | exfalso; match goal with H : ?a = ?a -> _ <> _ |- _ => apply (H eq_refl); reflexivity end].
Lemma begin_good signals last w r i me timed : rel signals last w r -> permitted r (JoinBegin i me timed) = true -> good signals last r (join_begin w i me timed).
Proof.
  intros R P. open_all. cbn in P. destruct jo as [j|]; [discriminate|]. destruct Pl as (Os & X). unfold join_begin. cbn [state callers thread]. rewrite Os.
  by_life; try discriminate; cbn [good newest observe l_life pending joining];
  (eexists; split; [reflexivity|]); prove_rel; eauto 9; (split; [fin|]); rewrite Nat.eqb_refl;
  try match goal with |- context [Z.eqb ?a ?b] => destruct (Z.eqb_spec a b) end;
  cbn [placed state current thread l_life go signal set_state set_value set_count set_current]; facts; pick.
Qed.
Lemma spurious_good signals last w r i : rel signals last w r -> good signals last r (spurious w i).
Proof.
  intros R. open_all. unfold spurious. cbn [callers]. destruct (ca i) eqn:Ei; try exact I. by_place; [| | | | | | |rewrite Others in Ei; discriminate];
  (assert (i = i0) by (destruct (Nat.eq_dec i i0); [assumption|rewrite Others in Ei by assumption; discriminate])); subst i0; try congruence.
  cbn [good newest observe]. eexists. split; [reflexivity|]. by_life; prove_rel; eauto 9; (split; [fin|]); rewrite Nat.eqb_refl; rewrite Ep in Ei; injection Ei as -> ->; cbn [placed state current thread l_life go signal set_state set_value set_count set_current]; facts; pick.
Qed.
Lemma timeout_good signals last w r i : rel signals last w r -> good signals last r (timeout w i).
Proof.
  intros R. open_all. unfold timeout. cbn [callers]. destruct (ca i) as [|m []|m []| | | |] eqn:Ei; try exact I;
  (by_place; [| | | | | | |rewrite Others in Ei; discriminate];
  (assert (i = i0) by (destruct (Nat.eq_dec i i0); [assumption|rewrite Others in Ei by assumption; discriminate])); subst i0; try congruence);
  cbn [good newest observe]; (eexists; split; [reflexivity|]); by_life; prove_rel; eauto 9; (split; [fin|]); rewrite Nat.eqb_refl; rewrite Ep in Ei; injection Ei as -> ->; cbn [placed state current thread l_life go signal set_state set_value set_count set_current]; facts; pick.
Qed.
Lemma fini_good signals last w r : rel signals last w r -> permitted r Fini = true -> good signals last r (fini w).
Proof.
  intros R P. open_all. cbn in P. destruct jo as [j|]; [discriminate|]. destruct Pl as (Os & X). unfold fini. cbn [state].
  by_life; cbn [good newest observe l_life pending joining]; (eexists; split; [reflexivity|]); prove_rel; eauto 9; (split; [fin|]); congruence || assumption.
Qed.
Lemma get_state_good signals last w r : rel signals last w r -> good signals last r (get_state w).
Proof.
  intros R. assert (H : is (state w) (shown (l_life r)) = true) by (open_all; by_life; reflexivity).
  unfold get_state. cbn [good newest observe]. rewrite H. exists r. split; [reflexivity|exact R].
Qed.
Lemma work_good signals last w r k a : rel signals last w r -> current w = Some k -> good signals last r (work w k a).
Proof.
  intros R E. open_all. unfold work. cbn [set_state set_value set_count set_current notifications current context value] in *. subst cu.
  by_life; try discriminate; cbn [at_ handle state] in *;
  try match goal with H : Some _ = Some _ |- _ => injection H as H; subst k end; cbn [at_ handle state] in *;
  destruct a; try exact I; try destruct how; try (match goal with w : way |- _ => destruct w end); try discriminate;
  cbn [good newest observe l_life pending joining]; try (replace (u32 pe) with pe by (unfold u32; rewrite Z.mod_small; lia)); try match goal with H : Return = Return -> _ |- _ => specialize (H eq_refl); subst end; rewrite ?Z.eqb_refl; cbn [andb];
  (eexists; split; [reflexivity|]); by_place; prove_rel; try (split; fin); try rewrite ?Ep; cbn [woken placed state current thread l_life go signal set_state set_value set_count set_current]; 
  facts; try pick; try (split; [reflexivity|]; eexists; split; [|solve [eauto]]; intros; congruence).
  all: try split; try reflexivity; first [exists Return; pick | exists Exit; pick | exists Native; pick].
Qed.
