From Coq Require Import ZArith List Bool Lia.
From Verif Require Import CInt CUtil TimeModel TimeSpec TimeProofs DelayModel DelaySpec.
Import ListNotations.
Local Open Scope Z_scope.

Lemma s64_id x : is_s64 x -> s64 x = x.
Proof. unfold is_s64, s64. intros H. rewrite Z.mod_small; lia. Qed.

(** What is left, what was slept, and the shape of the trace. *)
Lemma sleeping_spec intr : forall answers d result trace,
  sleeping intr d d answers = Some (result, trace) -> honest trace ->
  asleep trace + nanoseconds result = nanoseconds d /\
  (valid d -> nanoseconds result <= nanoseconds d /\ Forall (fun p => valid (fst p)) trace /\ valid result) /\
  (exists t a rest, trace = rest ++ [(t, a)] /\
     Forall (fun p => exists r, snd p = Interrupted r) rest /\
     (intr = true -> rest = []) /\
     match a with Slept => result = (0, 0) | Refused => True | Interrupted _ => intr = true end) /\
  map snd trace = firstn (length trace) answers /\
  (exists rest, trace = (d, hd Slept answers) :: rest).
Proof.
  induction answers as [|a answers IH]; intros d result trace E H; [discriminate E|]. cbn [sleeping] in E. destruct a as [|r|].
  - injection E as <- <-. pose proof (Forall_inv H) as H1. cbn in H1. cbn [asleep fold_right]. unfold valid, nanoseconds in *. cbn [fst snd].
    split; [lia|]. split; [intros V; split; [lia|]; split; [constructor; [exact V|constructor]|lia]|]. split.
    + exists d, Slept, []. repeat split; constructor.
    + split; [reflexivity|]. eexists. reflexivity.
  - destruct intr.
    + injection E as <- <-. pose proof (Forall_inv H) as H1. cbn in H1. cbn [asleep fold_right].
      split; [lia|]. split; [intros V; split; [lia|]; split; [constructor; [exact V|constructor]|apply H1]|]. split.
      * exists d, (Interrupted r), []. repeat split; constructor.
      * split; [reflexivity|]. eexists. reflexivity.
    + destruct (sleeping false r r answers) as [[res tr]|] eqn:E1; [|discriminate E]. cbn [bind] in E. injection E as <- <-.
      pose proof (Forall_inv H) as H1. pose proof (Forall_inv_tail H) as H2. cbn in H1.
      destruct (IH r res tr E1 H2) as (I1 & I3 & (t & a & rest & I4 & I5 & I6 & I7) & I8 & I9). cbn [asleep fold_right]. fold (asleep tr).
      split; [lia|]. split.
      { intros V. destruct (I3 (proj1 H1)) as (I2 & A & B). split; [lia|]. split; [constructor; [exact V|exact A]|exact B]. }
      split.
      { exists t, a, ((d, Interrupted r) :: rest). rewrite I4. split; [reflexivity|]. split; [constructor; [exists r; reflexivity|exact I5]|].
        split; [intros Q; discriminate Q|exact I7]. }
      split; [cbn [map length firstn snd]; f_equal; exact I8|]. eexists. reflexivity.
  - injection E as <- <-. cbn [asleep fold_right]. split; [lia|]. split; [intros V; split; [lia|]; split; [constructor; [exact V|constructor]|exact V]|]. split.
    + exists d, Refused, []. repeat split; constructor.
    + split; [reflexivity|]. eexists. reflexivity.
Qed.

Lemma delay_open ticks intr answers : is_u64 ticks -> exists d,
  nanoseconds d = s64 ticks /\ (ticks < 2 ^ 63 -> valid d) /\ is_s64 (fst d * 1000000000) /\
  diminuto_delay ticks intr answers =
    let* '(result, trace) := sleeping intr d d answers in
    let* t := seconds2ticks (fst result) (snd result) 1000000000 in
    Some (u64 t, trace).
Proof.
  intros U. assert (S : is_s64 (s64 ticks)) by (unfold is_s64, s64; pose proof (Z.mod_pos_bound (ticks + 9223372036854775808) 18446744073709551616); lia).
  exists (Z.quot (s64 ticks) 1000000000, Z.rem (s64 ticks) 1000000000).
  pose proof (Z.quot_rem' (s64 ticks) 1000000000) as Q. split; [unfold nanoseconds; cbn [fst snd]; lia|]. split.
  - intros L. assert (E : s64 ticks = ticks) by (apply s64_id; unfold is_s64, is_u64 in *; lia). rewrite E in *. unfold valid. cbn [fst snd].
    pose proof (Z.rem_bound_pos ticks 1000000000). pose proof (Z.quot_pos ticks 1000000000). unfold is_u64 in U. lia.
  - split; [|unfold diminuto_delay; rewrite whole_spec, fraction_spec by exact S; reflexivity].
    cbn [fst]. pose proof (quot_bound (s64 ticks) 1000000000 ltac:(lia)) as _. pose proof (Z.quot_rem' (s64 ticks) 1000000000). unfold is_s64 in *.
    destruct (Z.le_gt_cases 0 (s64 ticks)).
    + pose proof (Z.rem_bound_pos (s64 ticks) 1000000000). lia.
    + pose proof (Z.rem_bound_pos_neg (s64 ticks) 1000000000). lia.
Qed.
