(** Proofs for the pin utility. *)

From Coq Require Import ZArith List Bool Lia String.
From Verif Require Import CInt CUtil NumberModel NumberSpec NumberProofs NumberProps PinModel PinSpec PinProofs PinProps GpioModel GpioSpec.
Import ListNotations.
Local Open Scope Z_scope.

Lemma s32_id pin : 0 <= pin < 2 ^ 31 -> s32 pin = pin.
Proof. intros P. change (2 ^ 31) with 2147483648 in P. unfold s32. rewrite Z.mod_small by lia. lia. Qed.

Lemma read_number a n : numeral a n -> 0 <= n < 2 ^ 64 -> number_unsigned a = (n, []).
Proof.
  intros N B. pose proof (C60_unsigned a n [] N I) as U. rewrite app_nil_r in U. rewrite U. rewrite Z.abs_eq by apply B.
  destruct (Z.ltb_spec n (2 ^ 64)); [|lia]. rewrite Z.mod_small by exact B. reflexivity.
Qed.

Lemma fine_none e : fine e false <-> e = None.
Proof. unfold fine. split; [intros [H|(_ & H)]; [exact H|discriminate]|auto]. Qed.

Lemma configured_ok a n f s r t : configured a n false f s (r, t) -> (r = 0 \/ r = -1) /\ (r = 0 <-> opens a n /\ fputs a = None /\ fflush a = None /\ fclose a = true) /\ (r = 0 -> wrote f s t).
Proof. intros (R & E & W & _). rewrite !fine_none in E. auto. Qed.

Lemma setup_ok w d tries root pin out fp t : 0 <= pin < 2 ^ 31 -> (List.length root <= 4000)%nat ->
  setup (w_export w) (w_direction w) (w_stat w) (w_fopen w) d tries root pin out = (fp, t) ->
  (fp = true <-> ready w tries) /\ (fp = true -> prepared root pin (if out =? 0 then "in" else "out") (if out =? 0 then 114 else 119) t).
Proof.
  intros P L E. destruct (C78_setup _ _ _ _ _ _ _ _ _ _ _ P L E) as (F & T). cbn zeta in F. split; [|exact T].
  destruct (C78_configure (w_export w) d root pin P L) as (X & _). destruct (C78_configure (w_direction w) d root pin P L) as (_ & _ & _ & D).
  destruct (D tries out) as (_ & D2 & _). destruct (export (w_export w) d root pin) as (r1, t1). destruct (direction (w_direction w) d tries root pin out) as (r2, t2).
  destruct (configured_ok _ _ _ _ _ _ X) as (_ & E1 & _). destruct (configured_ok _ _ _ _ _ _ D2) as (_ & E2 & _). cbn [fst] in F. rewrite F, E1, E2. unfold ready. tauto.
Qed.

Lemma leave_ok w d root pin rc t out : 0 <= pin < 2 ^ 31 -> (List.length root <= 4000)%nat ->
  let o := leave w d root true pin rc t out in
  exit o = rc /\ output o = out /\ exists t', calls o = t ++ t' /\ (releases w -> w_fclose w = true -> released root pin t') /\
    (~ releases w -> t' = snd (unexport (w_unexport w) d root pin)).
Proof.
  intros P L. cbn zeta. unfold leave. rewrite (s32_id pin P). cbn [exit output calls]. split; [reflexivity|]. split; [reflexivity|].
  destruct (unused (w_unexport w) (w_fclose w) d root true pin) as (fp, t') eqn:E. destruct (C78_unused _ _ _ _ _ _ _ P L E) as (F & G & H).
  destruct (C78_configure (w_unexport w) d root pin P L) as (_ & X & _). destruct (unexport (w_unexport w) d root pin) as (r, t1) eqn:U.
  destruct (configured_ok _ _ _ _ _ _ X) as (_ & E1 & _). cbn [fst snd] in *. exists t'. split; [reflexivity|]. split.
  - intros Q1 Q2. apply G, F. split; [apply E1, Q1|exact Q2].
  - intros Q. apply H. intros Z0. apply Q, E1, Z0.
Qed.
