(** Proofs about loadable modules. *)

From Coq Require Import ZArith List Bool Lia.
From Verif Require Import ModuleModel ModuleSpec.
Import ListNotations.
Local Open Scope Z_scope.

Lemma load_ok : forall w r f, load w r f = match module_in w f with None => (0, r) | Some m => (m, setref r m (S (r m))) end.
Proof. intros. unfold load, load_generic, dlopen. cbn. destruct (module_in w f); reflexivity. Qed.

Lemma history_ok : forall w ops r, (forall m, permanent w m = false) ->
  (forall before after m, ops = before ++ after -> (unloads m before <= r m + loads w m before)%nat) ->
  snd (history w r ops) = map (expected w) ops /\ forall m, (fst (history w r ops) m + unloads m ops = r m + loads w m ops)%nat.
Proof.
  intros w. induction ops as [|o ops IH]; intros r P M; [split; [reflexivity|intros; cbn; lia]|]. cbn [history]. destruct o as [f|x].
  - rewrite load_ok. cbn [loads unloads map expected]. destruct (module_in w f) as [m0|] eqn:E.
    + destruct (IH (setref r m0 (S (r m0))) P) as (A & B).
      { intros before after m ->. specialize (M (Load f :: before) after m eq_refl). cbn [unloads loads] in M. rewrite E in M. unfold setref. rewrite (Z.eqb_sym m m0). destruct (Z.eqb_spec m0 m) as [Q|Q]; [subst m|]; lia. }
      destruct (history w _ ops) as (r', l). cbn [fst snd] in *. split; [rewrite A; reflexivity|]. intros m. specialize (B m). unfold setref in B. rewrite (Z.eqb_sym m m0) in B. destruct (Z.eqb_spec m0 m) as [Q|Q]; [subst m|]; lia.
    + destruct (IH r P) as (A & B).
      { intros before after m ->. specialize (M (Load f :: before) after m eq_refl). cbn [unloads loads] in M. rewrite E in M. lia. }
      destruct (history w r ops) as (r', l). cbn [fst snd] in *. split; [rewrite A; reflexivity|]. intros m. specialize (B m). lia.
  - assert (N : exists n, r x = S n). { specialize (M [Unload x] ops x eq_refl). cbn in M. rewrite Z.eqb_refl in M. destruct (r x); [lia|eauto]. } destruct N as (n & N).
    assert (U : unload 1 w r x false = Some (0, setref r x n, 1%nat)) by (unfold unload; cbn [closing]; unfold dlclose; rewrite N, P; reflexivity).
    rewrite U. destruct (IH (setref r x n) P) as (A & B).
    { intros before after m ->. specialize (M (Unload x :: before) after m eq_refl). cbn [unloads loads] in M. unfold setref. rewrite (Z.eqb_sym m x). destruct (Z.eqb_spec x m) as [Q|Q]; [subst m|]; lia. }
    destruct (history w _ ops) as (r', l). cbn [fst snd map expected loads unloads] in *. split; [rewrite A; reflexivity|]. intros m. specialize (B m). unfold setref in B. rewrite (Z.eqb_sym m x) in B. destruct (Z.eqb_spec x m) as [Q|Q]; [subst m|]; lia.
Qed.

Lemma closing_force : forall w m, permanent w m = false -> forall n r fuel, r m = n -> (n < fuel)%nat ->
  exists r', closing fuel w r m true = Some (-1, r', S n) /\ r' m = O /\ forall x, x <> m -> r' x = r x.
Proof.
  intros w m P. induction n as [|n IH]; intros r fuel R F; (destruct fuel as [|fuel]; [lia|]); cbn [closing]; unfold dlclose; rewrite R.
  - exists r. cbn. auto.
  - rewrite P. cbn [andb Z.eqb]. destruct (IH (setref r m n) fuel) as (r' & E & Z0 & O); [unfold setref; rewrite Z.eqb_refl; reflexivity|lia|]. rewrite E. exists r'. split; [reflexivity|]. split; [exact Z0|]. intros x N. rewrite O by exact N. unfold setref. destruct (Z.eqb_spec x m); [contradiction|reflexivity].
Qed.
Lemma closing_stuck : forall w m r, permanent w m = true -> r m <> O -> forall fuel, closing fuel w r m true = None.
Proof.
  intros w m r P N. induction fuel as [|fuel IH]; [reflexivity|]. cbn [closing]. unfold dlclose. destruct (r m) as [|n] eqn:R; [congruence|]. rewrite P. cbn [andb Z.eqb]. rewrite IH. reflexivity.
Qed.
