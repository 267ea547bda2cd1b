From Coq Require Import ZArith List Bool Lia Arith.
From Verif Require Import CInt RingModel RingSpec.
Import ListNotations.
Local Open Scope Z_scope.

Definition reps (cap : Z) (r : ring) (q : counters) : Prop :=
  capacity r = cap /\ measure r = outstanding q /\ producer r = produced q mod cap /\
  consumer r = consumed q mod cap /\ 0 <= outstanding q <= cap.

Lemma s32_small x : 0 <= x < 2147483648 -> s32 x = x.
Proof. intros. unfold s32. rewrite Z.mod_small; lia. Qed.

Lemma step_refines cap r q c : 1 <= cap <= 2147483648 -> call_ok c -> reps cap r q ->
  exists r', apply r c = Some (r', snd (spec_apply cap q c)) /\ reps cap r' (fst (spec_apply cap q c)).
Proof.
  intros Hc Hk (E1 & E2 & E3 & E4 & E5).
  pose proof (Z.mod_pos_bound (produced q) cap ltac:(lia)) as Bp.
  pose proof (Z.mod_pos_bound (consumed q) cap ltac:(lia)) as Bc.
  assert (R : forall x, rem32 x cap = Some (x mod cap)).
  { intros x. unfold rem32. replace (cap =? 0) with false by (symmetry; apply Z.eqb_neq; lia). reflexivity. }
  destruct c as [n|n|n|n]; cbn [call_ok apply spec_apply] in *.
  - unfold producer_request. rewrite E1, E2. unfold u32. rewrite (Z.mod_small (outstanding q + n)) by lia.
    destruct (outstanding q + n <=? cap) eqn:L.
    + apply Z.leb_le in L. rewrite R. eexists. split; [rewrite E3, s32_small by lia; reflexivity|].
      cbn [fst]. unfold reps, outstanding in *. cbn. repeat split; try lia.
      rewrite ?E3. rewrite (Z.mod_small (_ + n)) by lia. apply Zplus_mod_idemp_l.
    + eexists. split; [reflexivity|]. cbn. unfold reps. auto.
  - unfold producer_revoke. rewrite E1, E2.
    destruct (n <=? outstanding q) eqn:L.
    + apply Z.leb_le in L. rewrite R. eexists. split; [rewrite s32_small by lia; reflexivity|].
      cbn [fst]. unfold reps, outstanding, u32 in *. cbn. rewrite ?E3.
      repeat split; try lia.
      * rewrite Z.mod_small; lia.
      * rewrite (Z.mod_small (_ + cap - n)) by lia.
        replace (produced q mod cap + cap - n) with (produced q mod cap - n + 1 * cap) by lia.
        rewrite Z_mod_plus_full. apply Zminus_mod_idemp_l.
    + eexists. split; [reflexivity|]. cbn. unfold reps. auto.
  - unfold consumer_request. rewrite E1, E2.
    destruct (n <=? outstanding q) eqn:L.
    + apply Z.leb_le in L. rewrite R. eexists. split; [rewrite E4, s32_small by lia; reflexivity|].
      cbn [fst]. unfold reps, outstanding, u32 in *. cbn. rewrite ?E4. repeat split; try lia.
      * rewrite Z.mod_small; lia.
      * rewrite (Z.mod_small (_ + n)) by lia. apply Zplus_mod_idemp_l.
    + eexists. split; [reflexivity|]. cbn. unfold reps. auto.
  - unfold consumer_revoke. rewrite E1, E2. unfold u32. rewrite (Z.mod_small (outstanding q + n)) by lia.
    destruct (outstanding q + n <=? cap) eqn:L.
    + apply Z.leb_le in L. rewrite R. eexists. split; [rewrite s32_small by lia; reflexivity|].
      cbn [fst]. unfold reps, outstanding in *. cbn. rewrite ?E4. repeat split; try lia.
      rewrite (Z.mod_small (_ + cap - n)) by lia.
      replace (consumed q mod cap + cap - n) with (consumed q mod cap - n + 1 * cap) by lia.
      rewrite Z_mod_plus_full. apply Zminus_mod_idemp_l.
    + eexists. split; [reflexivity|]. cbn. unfold reps. auto.
Qed.

Lemma run_refines cap cs : 1 <= cap <= 2147483648 -> forall r q, Forall call_ok cs -> reps cap r q ->
  exists r', run r cs = Some (r', snd (spec_run cap q cs)) /\ reps cap r' (fst (spec_run cap q cs)).
Proof.
  intros Hc. induction cs as [|c cs IH]; intros r q Hok H; [exists r; auto|].
  apply Forall_cons_iff in Hok. destruct Hok as [H1 H2].
  destruct (step_refines cap r q c Hc H1 H) as (r1 & E & H'). cbn [run spec_run]. rewrite E.
  destruct (spec_apply cap q c) as [q1 x]. cbn [fst snd] in *.
  destruct (IH r1 q1 H2 H') as (r2 & E2 & H2'). rewrite E2.
  destruct (spec_run cap q1 cs) as [q2 xs]. cbn [fst snd] in *. eauto.
Qed.

Lemma init_reps cap : 1 <= cap <= 2147483648 -> reps cap (init cap) (Counters 0 0).
Proof.
  intros H. unfold reps, init, outstanding, u32. cbn [capacity measure producer consumer produced consumed].
  rewrite Zmod_0_l, Z.mod_small by lia. repeat split; lia.
Qed.

Theorem ring_refines cap cs : 1 <= cap <= 2147483648 -> Forall call_ok cs ->
  exists r, run (init cap) cs = Some (r, snd (spec_run cap (Counters 0 0) cs)) /\
    let q := fst (spec_run cap (Counters 0 0) cs) in
    used r = outstanding q /\ free r = cap - outstanding q /\ used r + free r = cap /\
    0 <= outstanding q <= cap /\
    consumer_peek r = if 1 <=? outstanding q then consumed q mod cap else -1.
Proof.
  intros Hc Hok. destruct (run_refines cap cs Hc (init cap) (Counters 0 0) Hok (init_reps cap Hc)) as (r & E & H).
  exists r. split; [exact E|]. cbv zeta. destruct H as (E1 & E2 & E3 & E4 & E5).
  unfold used, free, u32, consumer_peek. rewrite E1, E2, E4. rewrite Z.mod_small by lia.
  repeat split; try lia. destruct (1 <=? _); [|reflexivity]. apply s32_small.
  pose proof (Z.mod_pos_bound (consumed (fst (spec_run cap (Counters 0 0) cs))) cap). lia.
Qed.

Lemma slots_distinct cap i j : 0 < cap -> 0 <= j - i < cap -> i mod cap = j mod cap -> i = j.
Proof.
  intros Hc H E. assert (X : (j - i) mod cap = 0).
  { rewrite Zminus_mod, E, Z.sub_diag. apply Zmod_0_l. }
  rewrite Z.mod_small in X; lia.
Qed.

(** * The array *)
Section Array.
  Context {T : Type}.

  (** [mem] holds [xs] from index [i] on. *)
  Definition holds (cap : Z) (mem : Z -> T) (i : Z) (xs : list T) : Prop :=
    forall k x, nth_error xs k = Some x -> mem ((i + Z.of_nat k) mod cap) = x.

  Lemma next_spec cap r i : capacity r = cap -> 1 <= cap <= 2147483648 ->
    next r (i mod cap) = Some ((i + 1) mod cap).
  Proof.
    intros E H. unfold next, rem32, u32. rewrite E.
    replace (cap =? 0) with false by (symmetry; apply Z.eqb_neq; lia).
    pose proof (Z.mod_pos_bound i cap ltac:(lia)).
    rewrite (Z.mod_small (_ + 1)) by lia. rewrite Zplus_mod_idemp_l. reflexivity.
  Qed.

  Lemma store_spec cap r xs : capacity r = cap -> 1 <= cap <= 2147483648 -> forall mem i,
    Z.of_nat (length xs) <= cap ->
    exists mem', store r mem (i mod cap) xs = Some mem' /\ holds cap mem' i xs /\
      (forall j, 0 <= j - (i + Z.of_nat (length xs)) < cap - Z.of_nat (length xs) -> mem' (j mod cap) = mem (j mod cap)).
  Proof.
    intros E H. induction xs as [|x xs IH]; intros mem i L.
    - exists mem. split; [reflexivity|]. split; [intros k y X; destruct k; discriminate|]. auto.
    - cbn [store length] in *. rewrite (next_spec cap) by assumption.
      destruct (IH (fun k => if k =? i mod cap then x else mem k) (i + 1) ltac:(lia)) as (mem' & E' & Hh & Hr).
      exists mem'. split; [exact E'|]. split.
      + intros k y X. destruct k as [|k].
        * injection X as <-. cbn [Z.of_nat]. rewrite Z.add_0_r.
          assert (W : i mod cap = (i + cap) mod cap).
          { replace (i + cap) with (i + 1 * cap) by lia. rewrite Z_mod_plus_full. reflexivity. }
          rewrite W. rewrite Hr by lia. rewrite <- W. rewrite Z.eqb_refl. reflexivity.
        * cbn [nth_error] in X. specialize (Hh k y X). replace (i + Z.of_nat (S k)) with (i + 1 + Z.of_nat k) by lia. exact Hh.
      + intros j Hj. rewrite Hr by lia.
        replace (j mod cap =? i mod cap) with false; [reflexivity|].
        symmetry. apply Z.eqb_neq. intros X.
        assert (i = j) by (apply (slots_distinct cap); [lia|lia|congruence]). lia.
  Qed.

  Lemma load_spec cap r n : capacity r = cap -> 1 <= cap <= 2147483648 -> forall mem i xs,
    holds cap mem i xs -> (n <= length xs)%nat -> load r mem (i mod cap) n = Some (firstn n xs).
  Proof.
    intros E H. induction n as [|n IH]; intros mem i xs Hh L; [reflexivity|].
    destruct xs as [|x xs]; [cbn in L; lia|]. cbn [load firstn]. rewrite (next_spec cap) by assumption.
    rewrite (IH mem (i + 1) xs).
    - specialize (Hh O x eq_refl). cbn [Z.of_nat] in Hh. rewrite Z.add_0_r in Hh. rewrite Hh. reflexivity.
    - intros k y X. specialize (Hh (S k) y X). replace (i + 1 + Z.of_nat k) with (i + Z.of_nat (S k)) by lia. exact Hh.
    - cbn in L. lia.
  Qed.

  Definition event_ok (e : event T) : Prop :=
    match e with Put xs => Z.of_nat (length xs) < 2147483648 | Get n => Z.of_nat n < 2147483648 end.

  Definition good (cap : Z) (r : ring) (q : counters) (mem : Z -> T) (pend : list T) : Prop :=
    reps cap r q /\ Z.of_nat (length pend) = outstanding q /\ holds cap mem (consumed q) pend.

  Lemma handle_spec cap r q mem pend e : 1 <= cap <= 2147483648 -> event_ok e -> good cap r q mem pend ->
    exists r' q' mem' pend' a f, handle r mem e = Some (r', mem', a, f) /\ good cap r' q' mem' pend' /\
      pend ++ a = f ++ pend' /\
      match e with
      | Put xs => f = [] /\ a = if Z.of_nat (length pend) + Z.of_nat (length xs) <=? cap then xs else []
      | Get n => a = [] /\ f = if Nat.leb n (length pend) then firstn n pend else []
      end.
  Proof.
    intros Hc Hok (H & Hl & Hh). destruct e as [xs|n]; cbn [event_ok handle] in *.
    - destruct (step_refines cap r q (Produce (Z.of_nat (length xs))) Hc ltac:(cbn; lia) H) as (r' & E & H').
      cbn [apply spec_apply] in *. rewrite E. rewrite Hl.
      pose proof (Z.mod_pos_bound (produced q) cap ltac:(lia)) as Bp.
      destruct (outstanding q + Z.of_nat (length xs) <=? cap) eqn:L; cbn [fst snd] in *.
      + apply Z.leb_le in L. replace (produced q mod cap <? 0) with false by (symmetry; apply Z.ltb_ge; lia).
        assert (Ec : capacity r' = cap) by apply H'.
        destruct (store_spec cap r' xs Ec Hc mem (produced q) ltac:(lia)) as (mem' & Es & Hs & Hr).
        rewrite Es. exists r', (Counters (produced q + Z.of_nat (length xs)) (consumed q)), mem', (pend ++ xs), xs, [].
        split; [reflexivity|]. split; [|split; [reflexivity|auto]].
        split; [exact H'|]. unfold outstanding in *. cbn. split; [rewrite app_length; lia|].
        intros k y X. destruct (Nat.lt_ge_cases k (length pend)) as [K|K].
        * rewrite nth_error_app1 in X by exact K. specialize (Hh k y X). rewrite <- Hh.
          assert (W : forall m, m mod cap = (m + cap) mod cap).
          { intros m. replace (m + cap) with (m + 1 * cap) by lia. rewrite Z_mod_plus_full. reflexivity. }
          rewrite W. apply Hr. lia.
        * rewrite nth_error_app2 in X by exact K. specialize (Hs _ y X).
          rewrite <- Hs. f_equal. f_equal. lia.
      + exists r', q, mem, pend, [], []. split; [reflexivity|]. split; [split; [exact H'|auto]|].
        rewrite app_nil_r. auto.
    - destruct (step_refines cap r q (Consume (Z.of_nat n)) Hc ltac:(cbn; lia) H) as (r' & E & H').
      cbn [apply spec_apply] in *. rewrite E.
      pose proof (Z.mod_pos_bound (consumed q) cap ltac:(lia)) as Bp.
      assert (Lb : Nat.leb n (length pend) = (Z.of_nat n <=? outstanding q)).
      { destruct (Nat.leb_spec n (length pend)); destruct (Z.leb_spec (Z.of_nat n) (outstanding q)); try reflexivity; lia. }
      rewrite Lb. destruct (Z.of_nat n <=? outstanding q) eqn:L; cbn [fst snd] in *.
      + apply Z.leb_le in L. replace (consumed q mod cap <? 0) with false by (symmetry; apply Z.ltb_ge; lia).
        assert (Ec : capacity r' = cap) by apply H'.
        rewrite (load_spec cap r' n Ec Hc mem (consumed q) pend Hh) by lia.
        exists r', (Counters (produced q) (consumed q + Z.of_nat n)), mem, (skipn n pend), [], (firstn n pend).
        split; [reflexivity|]. split; [|split; [rewrite app_nil_r, firstn_skipn; reflexivity|auto]].
        split; [exact H'|]. unfold outstanding in *. cbn. split; [rewrite skipn_length; lia|].
        intros k y X.
        assert (X' : nth_error pend (n + k) = Some y).
        { rewrite <- (firstn_skipn n pend). rewrite nth_error_app2 by (rewrite firstn_length; lia).
          rewrite firstn_length_le by lia. replace (n + k - n)%nat with k by lia. exact X. }
        specialize (Hh _ y X'). rewrite <- Hh. f_equal. f_equal. lia.
      + exists r', q, mem, pend, [], []. split; [reflexivity|]. split; [split; [exact H'|auto]|].
        rewrite app_nil_r. auto.
  Qed.

  Lemma session_spec cap : 1 <= cap <= 2147483648 -> forall es r q mem pend, Forall event_ok es ->
    good cap r q mem pend ->
    exists r' a f pend', session r mem es = Some (r', a, f) /\ pend ++ a = f ++ pend' /\
      Z.of_nat (length pend') = used r' /\ used r' <= cap.
  Proof.
    intros Hc. induction es as [|e es IH]; intros r q mem pend Hok G.
    - exists r, [], [], pend. split; [reflexivity|]. split; [rewrite app_nil_r; reflexivity|].
      destruct G as ((_ & E2 & _ & _ & E5) & L & _). unfold used. lia.
    - apply Forall_cons_iff in Hok. destruct Hok as [H1 H2].
      destruct (handle_spec cap r q mem pend e Hc H1 G) as (r' & q' & mem' & pend' & a & f & E & G' & A & _).
      destruct (IH r' q' mem' pend' H2 G') as (r2 & a2 & f2 & pend2 & E2 & A2 & U1 & U2).
      cbn [session]. rewrite E, E2. exists r2, (a ++ a2), (f ++ f2), pend2.
      split; [reflexivity|]. split; [|auto]. rewrite app_assoc, A, <- app_assoc, A2, app_assoc. reflexivity.
  Qed.

  Lemma good_init cap mem : 1 <= cap <= 2147483648 -> good cap (init cap) (Counters 0 0) mem [].
  Proof.
    intros H. split; [apply init_reps; exact H|]. split; [reflexivity|]. intros k x X. destruct k; discriminate.
  Qed.
End Array.

Lemma huge_request_wraps : exists r1 r2,
  apply (init 16) (Produce 8) = Some (r1, 0) /\
  apply r1 (Produce 4294967295) = Some (r2, 8) /\ used r2 = 7.
Proof.
  do 2 eexists. split; [vm_compute; reflexivity|]. split; [vm_compute; reflexivity|]. vm_compute. reflexivity.
Qed.

Lemma s32_m1 x : is_u32 x -> s32 x = -1 -> x = 4294967295.
Proof.
  unfold is_u32, s32. intros H E. 
  assert (X : (x + 2147483648) mod 4294967296 = 2147483647) by lia.
  pose proof (Z.div_mod (x + 2147483648) 4294967296 ltac:(lia)) as D.
  assert (0 <= (x + 2147483648) / 4294967296 <= 1).
  { split; [apply Z.div_pos; lia|]. apply Z.lt_succ_r. apply Z.div_lt_upper_bound; lia. }
  assert ((x + 2147483648) / 4294967296 = 0 \/ (x + 2147483648) / 4294967296 = 1) by lia. lia.
Qed.

Lemma refusal r c r' : apply r c = Some (r', -1) ->
  is_u32 (producer r) -> is_u32 (consumer r) -> producer r <> 4294967295 -> consumer r <> 4294967295 ->
  call_ok c -> r' = r.
Proof.
  intros E H1 H2 N1 N2 Hok.
  destruct c as [n|n|n|n]; cbn [apply call_ok] in *;
    unfold producer_request, producer_revoke, consumer_request, consumer_revoke in E;
    destruct (_ <=? _); try congruence; destruct (rem32 _ _); try discriminate;
    injection E as E1 E2; exfalso.
  - apply s32_m1 in E2; auto.
  - rewrite s32_small in E2 by lia. lia.
  - apply s32_m1 in E2; auto.
  - rewrite s32_small in E2 by lia. lia.
Qed.
