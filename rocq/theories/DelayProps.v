(** Property C68. *)

From Coq Require Import ZArith List Bool Lia.
From Verif Require Import CInt CUtil TimeModel TimeSpec TimeProofs DelayModel DelaySpec DelayProofs.
Import ListNotations.
Local Open Scope Z_scope.

(** However often it is interrupted: what a delay returns is what is missing from the
    time asleep; every time it asks for is valid, the first being the whole delay; and
    it ends only when it has slept, was refused, or may be interrupted. *)
Theorem C68_delay : forall ticks interruptible answers t trace,
  0 <= ticks < 2 ^ 63 -> diminuto_delay ticks interruptible answers = Some (t, trace) -> honest trace ->
  asleep trace + t = ticks /\ 0 <= t /\
  Forall (fun p => valid (fst p)) trace /\
  (exists d a rest, trace = (d, a) :: rest /\ nanoseconds d = ticks) /\
  (exists d a rest, trace = rest ++ [(d, a)] /\ Forall (fun p => exists r, snd p = Interrupted r) rest /\
     (interruptible = true -> rest = []) /\
     match a with Slept => t = 0 | Refused => True | Interrupted _ => interruptible = true end).
Proof.
  intros ticks intr answers t trace U E H. destruct (delay_open ticks intr answers) as (d & D1 & D2 & D3 & D4); [unfold is_u64; lia|].
  rewrite D4 in E. destruct (sleeping intr d d answers) as [[res tr]|] eqn:S; [|discriminate E]. cbn [bind] in E.
  rewrite s64_id in D1 by (unfold is_s64; lia). specialize (D2 (proj2 U)).
  destruct (seconds2ticks (fst res) (snd res) 1000000000) as [t'|] eqn:T; [|discriminate E]. cbn [bind] in E. injection E as <- ->.
  destruct (sleeping_spec intr answers d res trace S H) as (P1 & P3 & (d1 & a & rest & P4 & P5 & P6 & P7) & P8 & (r9 & P9)).
  destruct (P3 D2) as (P2 & V1 & V2). pose proof V2 as (V2a & V2b & V2c).
  assert (B : 0 <= nanoseconds res <= ticks) by (unfold nanoseconds in *; lia).
  rewrite seconds2ticks_spec in T by (unfold nanoseconds, is_s64 in *; lia). injection T as <-.
  assert (E : u64 (fst res * 1000000000 + snd res) = nanoseconds res) by (unfold u64; apply Z.mod_small; unfold nanoseconds in *; lia).
  rewrite E. split; [lia|]. split; [lia|]. split; [exact V1|]. split.
  - eexists _, _, _. split; [exact P9|exact D1].
  - exists d1, a, rest. split; [exact P4|]. split; [exact P5|]. split; [exact P6|]. destruct a; [subst res; reflexivity|exact P7|exact I].
Qed.
Print Assumptions C68_delay.

(** In particular a delay that is not to be interrupted, and not refused, sleeps as
    long as it should. *)
Theorem C68_uninterruptible : forall ticks answers t trace,
  0 <= ticks < 2 ^ 63 -> diminuto_delay ticks false answers = Some (t, trace) -> honest trace ->
  ~ In Refused (map snd trace) -> t = 0 /\ asleep trace = ticks.
Proof.
  intros ticks answers t trace U E H N. destruct (C68_delay _ _ _ _ _ U E H) as (P1 & _ & _ & _ & (d & a & rest & -> & _ & _ & P2)).
  destruct a; [split; [exact P2|lia]|discriminate P2|]. exfalso. apply N. rewrite map_app. apply in_or_app. right. left. reflexivity.
Qed.
Print Assumptions C68_uninterruptible.

(** It ends as soon as the kernel does not interrupt it: there is no undefined
    behaviour. *)
Theorem C68_ends : forall ticks (interruptible : bool) n a more, 0 <= ticks < 2 ^ 63 ->
  Forall (fun r => valid r /\ nanoseconds r <= ticks) n -> a = Slept \/ a = Refused ->
  exists t trace, diminuto_delay ticks interruptible (map Interrupted n ++ a :: more) = Some (t, trace).
Proof.
  intros ticks intr n a more U F A. destruct (delay_open ticks intr (map Interrupted n ++ a :: more)) as (d & D1 & D2 & _ & ->); [unfold is_u64; lia|].
  rewrite s64_id in D1 by (unfold is_s64; lia). specialize (D2 (proj2 U)).
  assert (L : forall n d, Forall (fun r => valid r /\ nanoseconds r <= ticks) n -> valid d -> nanoseconds d <= ticks ->
     exists r tr, sleeping intr d d (map Interrupted n ++ a :: more) = Some (r, tr) /\ valid r /\ nanoseconds r <= ticks).
  { clear -A U. induction n as [|x n IH]; intros d F V B; cbn [map app sleeping].
    - destruct A as [-> | ->]; eexists _, _; (split; [reflexivity|]); [|auto]. unfold valid, nanoseconds. cbn. lia.
    - pose proof (Forall_inv F) as (X1 & X2). destruct intr; [eexists _, _; split; [reflexivity|auto]|].
      destruct (IH x (Forall_inv_tail F) X1 X2) as (r & tr & -> & X3). eexists _, _. split; [reflexivity|exact X3]. }
  destruct (L n d F D2 ltac:(lia)) as (r & tr & -> & V & B). cbn [bind]. unfold valid, nanoseconds in *.
  rewrite seconds2ticks_spec by (unfold is_s64; lia). eexists _, _. reflexivity.
Qed.
Print Assumptions C68_ends.

(** A delay that is too long for the kernel, or otherwise refused, returns all of it;
    those of 2^63 ticks and more are negative to the kernel. *)
Theorem C68_refused : forall ticks (interruptible : bool) more, 0 <= ticks < 2 ^ 64 ->
  exists d, diminuto_delay ticks interruptible (Refused :: more) = Some (ticks, [(d, Refused)]) /\
    (2 ^ 63 <= ticks -> fst d < 0 \/ snd d < 0).
Proof.
  intros ticks intr more U. destruct (delay_open ticks intr (Refused :: more)) as (d & D1 & D2 & D3 & ->); [unfold is_u64; lia|].
  exists d. cbn [sleeping bind]. split.
  - rewrite seconds2ticks_spec; [|exact D3|unfold nanoseconds in D1; rewrite D1; unfold is_s64, s64; pose proof (Z.mod_pos_bound (ticks + 9223372036854775808) 18446744073709551616); lia].
    cbn [bind]. unfold nanoseconds in D1. rewrite D1. do 2 f_equal. unfold u64, s64.
    rewrite Zminus_mod_idemp_l. replace (ticks + 9223372036854775808 - 9223372036854775808) with ticks by lia. apply Z.mod_small. lia.
  - intros L. unfold nanoseconds, s64 in D1.
    assert (E : (ticks + 9223372036854775808) mod 18446744073709551616 = ticks + 9223372036854775808 - 18446744073709551616)
      by (symmetry; apply Zmod_unique with 1; lia).
    rewrite E in D1. lia.
Qed.
Print Assumptions C68_refused.

(** A case in which the hypotheses hold: 2.5 seconds, interrupted twice. *)
Example C68_example :
  let trace := [((2, 500000000), Interrupted (1, 0)); ((1, 0), Interrupted (0, 7)); ((0, 7), Slept)] in
  diminuto_delay 2500000000 false [Interrupted (1, 0); Interrupted (0, 7); Slept] = Some (0, trace) /\
  honest trace /\
  diminuto_delay 2500000000 true [Interrupted (1, 0); Interrupted (0, 7); Slept] = Some (1000000000, [((2, 500000000), Interrupted (1, 0))]).
Proof.
  cbn zeta. split; [reflexivity|]. split; [|reflexivity].
  repeat (apply Forall_cons; [unfold valid, nanoseconds; cbn; lia|]). apply Forall_nil.
Qed.
Print Assumptions C68_example.
