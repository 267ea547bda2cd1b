(** Property theorems for macros. *)

From Coq Require Import ZArith List Bool Lia.
From Verif Require Import MacroModel MacroSpec MacroProofs.
Import ListNotations.
Local Open Scope Z_scope.

(** C89: the minimum and the maximum of a type, of any whole number of octets, are values of
    it, and there is no lower and no higher. *)
Theorem C89_minmax : forall t, whole t -> issigned t = signed t /\ value t (minimumof t) /\ value t (maximumof t) /\ forall x, value t x -> minimumof t <= x <= maximumof t.
Proof.
  intros t W. pose proof (issigned_ok t W) as IS. destruct W as (n & N & B). assert (B0 : 0 < bits t) by lia. split; [exact IS|].
  assert (WO : widthof t = bits t) by (unfold widthof; rewrite B, (Z.mul_comm 8), Z.div_mul by lia; reflexivity).
  unfold minimumof, maximumof. rewrite IS, WO. split; [destruct (signed t); apply convert_value, B0|]. split; [destruct (signed t); apply convert_value, B0|]. unfold complement, leftshift.
  assert (E : 2 ^ bits t = 2 * 2 ^ (bits t - 1)) by (rewrite <- Z.pow_succ_r by lia; f_equal; lia). assert (P : 1 < 2 ^ (bits t - 1)) by (apply Z.pow_gt_1; lia).
  assert (V1 : value t 1) by (unfold value; destruct (signed t); lia). rewrite (convert_id t 1 B0 V1), (convert_id t 0 B0 (zero_value t B0)), !convert_promote, Z.mul_1_l by exact B0.
  intros x V. unfold value in V. destruct (signed t) eqn:SG.
  - assert (M : convert t (2 ^ (bits t - 1)) = - 2 ^ (bits t - 1)).
    { rewrite (convert_mod t (- 2 ^ (bits t - 1)) _ 1 B0) by lia. apply convert_id; [exact B0|]. unfold value. rewrite SG. lia. }
    assert (X : convert t (Z.lnot (convert (promote t) (2 ^ (bits t - 1)))) = 2 ^ (bits t - 1) - 1).
    { destruct (promote_bits t B0) as (L & P'). unfold convert at 2. unfold promote. destruct (Z.ltb_spec (bits t) 32) as [Q|Q]; cbn [signed bits].
      - assert (2 ^ (bits t - 1) < 2 ^ 31) by (apply Z.pow_lt_mono_r; lia). change (32 - 1) with 31. rewrite Z.mod_small by (change (2 ^ 32) with (2 * 2 ^ 31); lia). unfold Z.lnot.
        rewrite (convert_mod t (2 ^ (bits t - 1) - 1) _ (-1) B0) by lia. apply convert_id; [exact B0|]. unfold value. rewrite SG. lia.
      - rewrite SG. replace (2 ^ (bits t - 1) + 2 ^ (bits t - 1)) with (1 * 2 ^ bits t) by lia. rewrite Z_mod_mult. unfold Z.lnot. replace (Z.pred (- (0 - 2 ^ (bits t - 1)))) with (2 ^ (bits t - 1) - 1) by lia. apply convert_id; [exact B0|]. unfold value. rewrite SG. lia. }
    rewrite M, X. lia.
  - change (Z.lnot 0) with (-1). rewrite (convert_mod t (2 ^ bits t - 1) (-1) (-1) B0) by lia. rewrite (convert_id t (2 ^ bits t - 1)); [lia|exact B0|unfold value; rewrite SG; lia].
Qed.
Print Assumptions C89_minmax.

(** C89: swapping two objects exchanges their values and touches no other; but to swap an
    object with itself makes it zero. *)
Theorem C89_swap : forall memory a b, a <> b ->
  swap memory a b a = memory b /\ swap memory a b b = memory a /\ forall c, c <> a -> c <> b -> swap memory a b c = memory c.
Proof.
  intros memory a b N. unfold swap, store. rewrite !Z.eqb_refl. destruct (Z.eqb_spec a b); [contradiction|]. destruct (Z.eqb_spec b a); [congruence|].
  assert (X : forall x y, Z.lxor y (Z.lxor x y) = x) by (intros x y; rewrite (Z.lxor_comm x y), <- Z.lxor_assoc, Z.lxor_nilpotent, Z.lxor_0_l; reflexivity).
  split; [apply X|]. split; [apply X|].
  intros c A B. destruct (Z.eqb_spec c a); [contradiction|]. destruct (Z.eqb_spec c b); [contradiction|]. reflexivity.
Qed.
Print Assumptions C89_swap.
Theorem C89_swap_refuted : forall memory a, swap memory a a a = 0.
Proof. intros. unfold swap, store. rewrite !Z.eqb_refl. apply Z.lxor_nilpotent. Qed.
Print Assumptions C89_swap_refuted.

(** C89: a program of tests exits with zero just if nothing went wrong, however much does;
    and with the number of errors if that is less than 256. *)
Theorem C89_exit : forall l, let '(status, c) := program l in
  errors c = fst (wrongs l) /\ (status = 0 <-> fst (wrongs l) = 0) /\ (fst (wrongs l) <= 255 -> status = fst (wrongs l)) /\ 0 <= status <= 255.
Proof.
  intros l. unfold program. assert (F : Forall good l) by (apply Forall_forall; intros; apply good_item). pose proof (good_all l F (Counters 0 0 [])) as G. destruct (wrongs l) as (n, on). destruct G as (c & E & R & N & _). rewrite E. cbn [errors] in R. cbn [fst].
  assert (n = errors c) by lia. subst n. split; [lia|]. unfold exit_status, exit_code, MAXIMUM. change 255 with (Z.ones 8). rewrite Z.land_ones by lia. change (2 ^ 8) with 256. change (Z.ones 8) with 255. rewrite Z.gtb_ltb. destruct (Z.ltb_spec 255 (errors c)); rewrite Z.mod_small by lia; lia.
Qed.
Print Assumptions C89_exit.

(** C89: a test says that it was a success just if nothing went wrong between its beginning
    and its end; its own status comes after those of the tests in it. *)
Theorem C89_status : forall body c on c', item_run (Test body) c = (on, c') ->
  on = snd (wrongs body) /\ errors c' = errors c + fst (wrongs body) /\
  (on = true -> exists inner success, statuses c' = statuses c ++ inner ++ [success] /\ (success = true <-> fst (wrongs body) = 0)).
Proof.
  intros body c on c' H. rewrite test_run in H. assert (F : Forall good body) by (apply Forall_forall; intros; apply good_item). pose proof (good_all body F (Counters (tests c + 1) (errors c) (statuses c))) as G. destruct (wrongs body) as (n, o). destruct G as (c1 & E & R & N & s & S). rewrite E in H. cbn [errors statuses] in R, S. cbn [fst snd].
  destruct o; injection H as <- <-; [|split; [reflexivity|]; split; [exact R|discriminate]]. split; [reflexivity|]. split; [exact R|]. intros _. cbn [statuses]. exists s, (errors c1 - errors c =? 0). rewrite S, <- app_assoc. split; [reflexivity|]. rewrite Z.eqb_eq. lia.
Qed.
Print Assumptions C89_status.

(** The types of C; two tests, one in the other, with one failure; and 256 failures. *)
Example C89_example :
  whole (Type_ true 16) /\ minimumof (Type_ true 16) = -32768 /\ maximumof (Type_ true 16) = 32767 /\ maximumof (Type_ false 64) = 18446744073709551615 /\
  minimumof (Type_ true 32) = -2147483648 /\ maximumof (Type_ true 32) = 2147483647 /\
  program [Test [Expect true; Test [Expect false; Advise false]; Failure]; Test []] = (2, Counters 3 2 [false; false; true]) /\
  fst (program (repeat Failure 256)) = 255 /\ fst (program [Fatal; Failure]) = 1.
Proof. split; [exists 2; cbn; lia|]. repeat split. Qed.
