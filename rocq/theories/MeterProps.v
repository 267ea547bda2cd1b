(** Property C66. *)

From Coq Require Import ZArith List Bool Lia.
From Verif Require Import CInt MeterModel MeterSpec MeterProofs.
Import ListNotations.
Local Open Scope Z_scope.

Lemma reset_inv t : 0 <= t < 2 ^ 64 -> inv (reset t) 0.
Proof. intros H. unfold inv, reset, most. cbn. lia. Qed.

(** For every history of calls: a call with a time before the last accepted one fails
    and changes nothing; a call that takes the events beyond what can be told fails
    with an overflow, and so does every later one that adds events; all others
    succeed. *)
Theorem C66_results : forall huge rate t h, 0 <= t < 2 ^ 64 -> sane h ->
  snd (calls huge rate (reset t) h) = answers t 0 h.
Proof.
  intros huge rate t h Ht Hs. apply (calls_inv huge rate h (reset t) 0 Hs (reset_inv t Ht)).
Qed.
Print Assumptions C66_results.

(** For every history the total is the sum of the accepted events, or the greatest
    number if it is beyond that; the interval is from the start to the last accepted
    call. The total never wraps around. *)
Theorem C66_total : forall huge rate t h, 0 <= t < 2 ^ 64 -> sane h ->
  let m := fst (calls huge rate (reset t) h) in
  events m = Z.min most (total (accepted t h)) /\
  interval m = latest t (accepted t h) - t /\ t <= latest t (accepted t h).
Proof.
  intros huge rate t h Ht Hs m. destruct (calls_inv huge rate h (reset t) 0 Hs (reset_inv t Ht)) as (I & E1 & E2 & _).
  fold m in I, E1, E2. destruct I as (I1 & I2 & _ & I4 & _). cbn [last start reset] in *. split; [exact I4|].
  unfold interval. rewrite <- E2. rewrite u64_id by lia. lia.
Qed.
Print Assumptions C66_total.

(** As long as the total can be told: the count is the number of calls with events,
    the burst the largest of them, and the peak the highest rate of one of them but the
    first, each over the time since the call before. *)
Theorem C66_exact : forall huge rate t h,
  0 <= t < 2 ^ 64 -> sane h -> (forall e d, rate e d <= huge) -> 0 <= huge ->
  total (accepted t h) <= most ->
  let m := fst (calls huge rate (reset t) h) in
  count m = Z.of_nat (length (measurements (accepted t h))) /\
  burst m = largest (measurements (accepted t h)) /\
  peak m = largest (rates huge rate false t (accepted t h)).
Proof.
  intros huge rate t h Ht Hs Hr Hh Hm m.
  destruct (calls_exact huge rate Hr Hh h (reset t) 0 Hs (reset_inv t Ht)) as (E1 & E2 & E3); cbn; try lia; [exact Hm|].
  cbn [last reset count burst peak] in *. fold m in E1, E2, E3. change (negb (0 =? 0)) with false in E3.
  assert (N : forall l, 0 <= largest l) by (induction l as [|x l IH]; cbn; [lia|unfold largest in IH; lia]).
  pose proof (N (measurements (accepted t h))). pose proof (N (rates huge rate false t (accepted t h))).
  split; [lia|]. split; lia.
Qed.
Print Assumptions C66_exact.

(** The sustained rate is that of the total over the interval; none without events,
    and infinite if no time has passed. *)
Theorem C66_sustained : forall huge rate t h, 0 <= t < 2 ^ 64 -> sane h ->
  sustained huge rate (fst (calls huge rate (reset t) h)) =
    let n := Z.min most (total (accepted t h)) in
    let dt := latest t (accepted t h) - t in
    if n =? 0 then 0 else if dt =? 0 then huge else rate n dt.
Proof.
  intros huge rate t h Ht Hs. destruct (calls_inv huge rate h (reset t) 0 Hs (reset_inv t Ht)) as (I & E1 & E2 & _).
  set (m := fst (calls huge rate (reset t) h)) in *. destruct I as (I1 & I2 & _ & I4 & _). cbn [last start reset] in *.
  cbn zeta. change (0 + total (accepted t h)) with (total (accepted t h)) in I4. unfold sustained. rewrite I4.
  rewrite <- E2, <- E1. destruct (_ =? 0); [reflexivity|].
  destruct (Z.leb_spec (last m) (start m)), (Z.eqb_spec (last m - start m) 0); try lia; try reflexivity.
  rewrite u64_id by lia. reflexivity.
Qed.
Print Assumptions C66_sustained.

(** Two measurements at the same time make the peak infinite for good. *)
Theorem C66_infinite_peak : forall huge rate t a now e1 e2 b,
  0 <= t < 2 ^ 64 -> sane (a ++ (now, e1) :: (now, e2) :: b) -> (forall e d, rate e d <= huge) -> 0 <= huge ->
  0 < e1 -> 0 < e2 -> latest t (accepted t a) <= now ->
  total (accepted t (a ++ (now, e1) :: (now, e2) :: b)) <= most ->
  peak (fst (calls huge rate (reset t) (a ++ (now, e1) :: (now, e2) :: b))) = huge.
Proof.
  intros huge rate t a now e1 e2 b Ht Hs Hr Hh H1 H2 Hl Hm.
  destruct (C66_exact huge rate t _ Ht Hs Hr Hh Hm) as (_ & _ & ->).
  assert (U : forall h s t, largest (rates huge rate s t h) <= huge).
  { clear -Hr Hh. induction h as [|[n e] h IH]; intros s t; [cbn; lia|]. cbn [rates]. destruct (e =? 0); [apply IH|].
    destruct s; [|apply IH]. cbn [largest fold_right]. fold (largest (rates huge rate true n h)).
    specialize (IH true n). unfold rate_over. specialize (Hr e (n - t)). destruct (_ =? 0); lia. }
  assert (L : forall a t s, latest t (accepted t a) <= now -> huge <= largest (rates huge rate s t (accepted t (a ++ (now, e1) :: (now, e2) :: b)))).
  { clear -H1 H2. induction a as [|[n e] a IH]; intros t s Hl.
    - cbn [app accepted]. cbn in Hl. destruct (Z.ltb_spec now t); [lia|]. cbn [rates]. destruct (Z.eqb_spec e1 0); [lia|].
      destruct (Z.ltb_spec now now); [lia|]. cbn [rates].
      destruct (Z.eqb_spec e2 0); [lia|]. unfold rate_over. rewrite Z.sub_diag. change (0 =? 0) with true. cbv iota.
      destruct s; unfold largest; cbn [fold_right]; cbv iota; lia.
    - cbn [app accepted] in *. destruct (n <? t); [apply IH, Hl|].
      assert (Hl' : latest n (accepted n a) <= now).
      { unfold latest in *. cbn [map fst] in Hl. destruct (map fst (accepted n a)) as [|x l]; [exact Hl|].
        change (List.last (n :: x :: l) t) with (List.last (x :: l) t) in Hl. 
        replace (List.last (x :: l) n) with (List.last (x :: l) t); [exact Hl|]. clear. revert x. induction l as [|y l IH]; intros x; [reflexivity|]. apply (IH y). }
      cbn [rates]. destruct (e =? 0); [apply IH, Hl'|]. destruct s; [|apply IH, Hl'].
      cbn [largest fold_right]. specialize (IH n true Hl'). unfold largest in IH. lia. }
  pose proof (L a t false Hl). pose proof (U (accepted t (a ++ (now, e1) :: (now, e2) :: b)) false t). lia.
Qed.
Print Assumptions C66_infinite_peak.

(** After an overflow the burst and the count are no longer kept: here the greatest
    burst is forgotten. *)
Theorem C66_overflow_burst_refuted : forall huge rate,
  burst (fst (calls huge rate (reset 0) [(1, 5); (2, most)])) = 5 /\
  count (fst (calls huge rate (reset 0) [(1, 5); (2, most)])) = 1.
Proof. intros huge rate. split; reflexivity. Qed.
Print Assumptions C66_overflow_burst_refuted.

(** A case in which the hypotheses hold: a call out of order, an empty one, and rates
    of 1000 * events / interval. *)
Example C66_example :
  let h := [(10, 4); (12, 6); (11, 99); (15, 0); (20, 20); (30, 1)] in
  let rate := fun e d => Z.min 1000000 (1000 * e / d) in
  sane h /\ total (accepted 5 h) = 31 /\
  rates 1000000 rate false 5 (accepted 5 h) = [3000; 4000; 100] /\
  calls 1000000 rate (reset 5) h = (mkmeter 5 30 4000 31 20 4, [Success; Success; Range; Success; Success; Success]) /\
  sustained 1000000 rate (fst (calls 1000000 rate (reset 5) h)) = 1240.
Proof.
  cbn zeta. split; [repeat (apply Forall_cons; [cbn; lia|]); apply Forall_nil|]. repeat split.
Qed.
