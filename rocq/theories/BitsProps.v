(** Property C46. *)

From Coq Require Import ZArith List Bool Lia.
From Verif Require Import CInt BitsModel BitsSpec BitsProofs.
Import ListNotations.
Local Open Scope Z_scope.

(** Reading, setting and clearing a bit of the array are reading, setting and
    clearing that bit of one big number, whatever the element width [w]: no other
    bit changes, and the array keeps its length. *)
Theorem C46_get : forall w bit l,
  0 < w -> elements w l -> 0 <= bit < w * Z.of_nat (length l) ->
  GET w bit l = Some (Z.b2z (Z.testbit (number w l) bit)).
Proof. exact get_spec. Qed.
Print Assumptions C46_get.

Theorem C46_set : forall w bit l,
  0 < w -> elements w l -> 0 <= bit < w * Z.of_nat (length l) ->
  exists l', SET w bit l = Some l' /\ length l' = length l /\ elements w l' /\
    number w l' = Z.setbit (number w l) bit.
Proof. exact set_spec. Qed.
Print Assumptions C46_set.

Theorem C46_clear : forall w bit l,
  0 < w -> elements w l -> 0 <= bit < w * Z.of_nat (length l) ->
  exists l', CLEAR w bit l = Some l' /\ length l' = length l /\ elements w l' /\
    number w l' = Z.clearbit (number w l) bit.
Proof. exact clear_spec. Qed.
Print Assumptions C46_clear.

(** The array of the computed size is just large enough for the bits. *)
Theorem C46_count : forall w bits, 0 < w -> 0 <= bits ->
  bits <= w * COUNT w bits /\ (forall n, bits <= w * n -> COUNT w bits <= n) /\
  (forall bit, 0 <= bit < bits -> 0 <= INDEX w bit < COUNT w bits).
Proof. exact count_spec. Qed.
Print Assumptions C46_count.

(** The mask has all the bits of an element. *)
Theorem C46_mask : forall w b, 0 < w -> 0 <= b -> Z.testbit (MASK w) b = (b <? w).
Proof.
  intros w b Hw Hb. unfold MASK. rewrite uw_testbit by lia. rewrite Z.lnot_spec, Z.bits_0 by lia.
  destruct (b <? w); reflexivity.
Qed.
Print Assumptions C46_mask.

(** A bit beyond the array is an access out of bounds. *)
Theorem C46_out_of_bounds : forall w bit l, 0 < w -> w * Z.of_nat (length l) <= bit ->
  GET w bit l = None /\ SET w bit l = None /\ CLEAR w bit l = None.
Proof. exact out_of_bounds. Qed.
Print Assumptions C46_out_of_bounds.

Example C46_example :
  elements 8 [0; 129; 3] /\ SET 8 14 [0; 129; 3] = Some [0; 193; 3] /\ CLEAR 8 17 [0; 129; 3] = Some [0; 129; 1] /\
  GET 8 15 [0; 129; 3] = Some 1 /\ GET 8 24 [0; 129; 3] = None /\ number 8 [0; 129; 3] = 0x38100.
Proof. split; [repeat constructor; lia|]. vm_compute. repeat split. Qed.
