(** Proofs about pins. *)

From Coq Require Import ZArith List Bool Lia String Ascii.
From Verif Require Import CInt CUtil NumberSpec NumberProofs OptionModel OptionProofs PinModel PinSpec.
Import ListNotations.
Local Open Scope Z_scope.

Lemma utoa_int n : 0 <= n < 2 ^ 31 -> utoa 10 n [] = dec n.
Proof.
  intros H. unfold dec. destruct (Z.eqb_spec n 0) as [->|N]; [reflexivity|]. rewrite (utoa_write 10 54) by (cbn; lia). apply app_nil_r.
Qed.

Lemma times_app p : forall a b, times p (a ++ b) = (times p a + times p b)%nat.
Proof. induction a as [|x a IH]; intros b; [reflexivity|]. cbn [app times]. rewrite IH. lia. Qed.

Definition quiet (file : list Z) (l : list action) : Prop :=
  Forall (trying file) l.
Lemma quiet1 file : quiet file [Stat file].
Proof. apply Forall_cons; [reflexivity|apply Forall_nil]. Qed.
Lemma quiet2 file : quiet file [Stat file; Fopen file 119].
Proof. apply Forall_cons; [reflexivity|]. apply Forall_cons; [split; reflexivity|apply Forall_nil]. Qed.
#[local] Hint Resolve quiet1 quiet2 : core.

Lemma attempts_spec st fo delay file : forall tries r t, attempts st fo delay file tries = (r, t) ->
  (r = true -> exists before, t = before ++ [Stat file; Fopen file 119] /\ quiet file before) /\ quiet file t /\
  (r = true -> exists k, (0 < k <= tries)%nat /\ st k = None /\ fo k = None /\
     forall j, (k < j <= tries)%nat -> (exists e, st j = Some e /\ retry e = true) \/ (st j = None /\ exists e, fo j = Some e /\ retry e = true)) /\
  ((exists k, (0 < k <= tries)%nat /\ st k = None /\ fo k = None /\
     forall j, (k < j <= tries)%nat -> (exists e, st j = Some e /\ retry e = true) \/ (st j = None /\ exists e, fo j = Some e /\ retry e = true)) -> r = true) /\
  (times is_stat t <= tries)%nat /\ (times is_delay t <= tries - 1)%nat /\ times is_close t = 0%nat /\
  Forall (fun a => match a with Delay d => d = delay | _ => True end) t.
Proof.
  induction tries as [|more IH]; intros r t E; cbn [attempts] in E.
  { injection E as <- <-. split; [discriminate|]. split; [constructor|]. split; [discriminate|]. split; [intros (k & K & _); lia|]. repeat split; try constructor; cbn; lia. }
  assert (AG : forall l, quiet file l -> times is_stat l = 1%nat -> times is_delay l = 0%nat -> times is_close l = 0%nat ->
    Forall (fun a => match a with Delay d => d = delay | _ => True end) l ->
    ((exists e, st (S more) = Some e /\ retry e = true) \/ (st (S more) = None /\ exists e, fo (S more) = Some e /\ retry e = true)) ->
    forall r t, (match more with O => (false, l) | S _ => let '(r, t) := attempts st fo delay file more in (r, l ++ Delay delay :: t) end) = (r, t) ->
    (r = true -> exists before, t = before ++ [Stat file; Fopen file 119] /\ quiet file before) /\ quiet file t /\
    (r = true -> exists k, (0 < k <= S more)%nat /\ st k = None /\ fo k = None /\
       forall j, (k < j <= S more)%nat -> (exists e, st j = Some e /\ retry e = true) \/ (st j = None /\ exists e, fo j = Some e /\ retry e = true)) /\
    ((exists k, (0 < k <= S more)%nat /\ st k = None /\ fo k = None /\
       forall j, (k < j <= S more)%nat -> (exists e, st j = Some e /\ retry e = true) \/ (st j = None /\ exists e, fo j = Some e /\ retry e = true)) -> r = true) /\
    (times is_stat t <= S more)%nat /\ (times is_delay t <= S more - 1)%nat /\ times is_close t = 0%nat /\
    Forall (fun a => match a with Delay d => d = delay | _ => True end) t).
  { intros l Q T1 T2 T3 FD C r' t' E'.
    assert (NK : forall k, (0 < k <= S more)%nat -> st k = None -> fo k = None -> (0 < k <= more)%nat).
    { intros k K S1 S2. destruct (Nat.eq_dec k (S more)) as [->|NE]; [|lia]. exfalso. destruct C as [(e & C & _)|(_ & e & C & _)]; congruence. }
    destruct more as [|m].
    - injection E' as <- <-. split; [discriminate|]. split; [exact Q|]. split; [discriminate|]. split; [intros (k & K & S1 & S2 & _); specialize (NK k K S1 S2); lia|]. repeat split; try lia; exact FD.
    - destruct (attempts st fo delay file (S m)) as (r0 & t0) eqn:A. injection E' as <- <-. destruct (IH _ _ eq_refl) as (I1 & I2 & I3 & I4 & I5 & I6 & I7 & I8).
      split; [intros R; destruct (I1 R) as (b & -> & QB); exists (l ++ Delay delay :: b); split; [rewrite <- app_assoc; reflexivity|apply Forall_app; split; [exact Q|constructor; [exact I|exact QB]]]|].
      split; [apply Forall_app; split; [exact Q|constructor; [exact I|exact I2]]|].
      split; [intros R; destruct (I3 R) as (k & K & S1 & S2 & J); exists k; split; [lia|]; split; [exact S1|]; split; [exact S2|]; intros j JJ; destruct (Nat.eq_dec j (S (S m))) as [->|NE]; [exact C|apply J; lia]|].
      split; [intros (k & K & S1 & S2 & J); apply I4; exists k; specialize (NK k K S1 S2); split; [lia|]; split; [exact S1|]; split; [exact S2|]; intros j JJ; apply J; lia|].
      rewrite !times_app. cbn [times is_stat is_delay is_close]. split; [lia|]. split; [lia|]. split; [lia|].
      apply Forall_app; split; [exact FD|constructor; [reflexivity|exact I8]]. }
  destruct (st (S more)) as [e|] eqn:S1.
  - destruct (retry e) eqn:R.
    + apply (AG [Stat file]); auto; left; exists e; split; [reflexivity|exact R].
    + injection E as <- <-. split; [discriminate|]. split; [auto|]. split; [discriminate|].
      split; [|cbn; repeat split; try lia; auto]. intros (k & K & T1 & T2 & J). destruct (Nat.eq_dec k (S more)) as [->|NE]; [congruence|].
      destruct (J (S more) ltac:(lia)) as [(e' & Q1 & Q2)|(Q1 & _)]; congruence.
  - destruct (fo (S more)) as [e|] eqn:F1.
    + destruct (retry e) eqn:R.
      * apply (AG [Stat file; Fopen file 119]); auto; right; split; [reflexivity|exists e; split; [reflexivity|exact R]].
      * injection E as <- <-. split; [discriminate|]. split; [auto|]. split; [discriminate|].
        split; [|cbn; repeat split; try lia; auto]. intros (k & K & T1 & T2 & J). destruct (Nat.eq_dec k (S more)) as [->|NE]; [congruence|].
        destruct (J (S more) ltac:(lia)) as [(e' & Q1 & Q2)|(_ & e' & Q1 & Q2)]; congruence.
    + injection E as <- <-. split; [intros _; exists []; split; [reflexivity|constructor]|]. split; [auto|].
      split; [intros _; exists (S more); split; [lia|]; split; [exact S1|]; split; [exact F1|]; intros j JJ; lia|]. split; [reflexivity|]. cbn. repeat split; try lia; auto.
Qed.

Lemma retry_temporary e : retry e = true <-> temporary e.
Proof. unfold temporary. destruct e; cbn; intuition congruence. Qed.

Lemma attempts_opens a tries : (exists k, (0 < k <= tries)%nat /\ stat a k = None /\ fopen a k = None /\
  forall j, (k < j <= tries)%nat -> (exists e, stat a j = Some e /\ retry e = true) \/ (stat a j = None /\ exists e, fopen a j = Some e /\ retry e = true)) <-> opens a tries.
Proof.
  unfold opens. split; intros (k & K & S1 & S2 & J); exists k; (split; [exact K|]); (split; [exact S1|]); (split; [exact S2|]); intros j JJ; specialize (J j JJ).
  - destruct J as [(e & Q1 & Q2)|(Q0 & e & Q1 & Q2)]; exists e; (split; [apply retry_temporary, Q2|tauto]).
  - destruct J as (e & T & [Q|(Q0 & Q)]); apply retry_temporary in T; [left; exists e; tauto|right; split; [exact Q0|exists e; tauto]].
Qed.

Lemma passes_fine e ignore : passes e ignore = true <-> fine e ignore.
Proof. unfold fine, passes. destruct e as [[]|], ignore; intuition congruence. Qed.

Lemma configure_spec a d root f pin s ignore tries delay : 0 <= pin ->
  configured a (Z.to_nat tries) ignore (filename root f pin) s (configure_generic a d root f pin s ignore tries delay).
Proof.
  intros P. unfold configure_generic. destruct (Z.ltb_spec pin 0); [lia|]. set (n := Z.to_nat tries). set (file := filename root f pin).
  destruct (attempts (stat a) (fopen a) d file n) as (r & t) eqn:A. destruct (attempts_spec _ _ _ _ _ _ _ A) as (H1 & H2 & H3 & H4 & H5 & H6 & H7 & _).
  rewrite attempts_opens in H3, H4. destruct r; cbn [negb].
  2:{ assert (NO : ~ opens a n) by (intros O; specialize (H4 O); discriminate H4). unfold configured. repeat split; try tauto; try lia. }
  specialize (H3 eq_refl). destruct (H1 eq_refl) as (b & E & QB). unfold configured.
  destruct (passes (fputs a) ignore) eqn:P1; cbn [negb].
  - destruct (passes (fflush a) ignore) eqn:P2; cbn [negb].
    + apply passes_fine in P1. apply passes_fine in P2. rewrite !times_app. cbn [times app is_close is_stat is_delay]. destruct (fclose a) eqn:C.
      * repeat split; try lia; try assumption; try tauto. intros _. exists b. split; [|exact QB]. rewrite E, <- !app_assoc. reflexivity.
      * repeat split; try lia; try (intros (_ & _ & _ & Q); discriminate Q); tauto.
    + assert (N2 : ~ fine (fflush a) ignore) by (intros Q; apply passes_fine in Q; congruence). rewrite !times_app. cbn [times app is_close is_stat is_delay].
      assert (R : (if fclose a then -1 else -1) = -1) by (destruct (fclose a); reflexivity). rewrite R. repeat split; try lia; tauto.
  - assert (N1 : ~ fine (fputs a) ignore) by (intros Q; apply passes_fine in Q; congruence). rewrite !times_app. cbn [times app is_close is_stat is_delay].
    assert (R : (if fclose a then -1 else -1) = -1) by (destruct (fclose a); reflexivity). rewrite R. repeat split; try lia; tauto.
Qed.

Lemma dec_short n : 0 <= n < 2 ^ 31 -> (List.length (dec n) <= 10)%nat.
Proof. intros H. rewrite <- utoa_int by exact H. pose proof (utoa_short 10 n []) as U. cbn [List.length] in U. lia. Qed.
