(** Property C65. *)

From Coq Require Import ZArith List Bool Lia.
From Verif Require Import CInt CUtil DumpModel DumpSpec DumpProofs.
Import ListNotations.
Local Open Scope Z_scope.

(** For all data, addresses, formats and line sizes, the dump is the table of lines
    that covers the data: each octet is shown once in hexadecimal and once as a
    character, at its address, and nothing beyond the data is read. *)
Theorem C65_dump : forall f data address,
  octets data -> 0 <= address -> 1 <= bpw f -> 1 <= wpl f ->
  address + Z.of_nat (length data) + 2 * (bpw f * wpl f) <= 2 ^ 64 ->
  exists a n, a <= address < a + bpw f * wpl f /\
    address + Z.of_nat (length data) <= a + Z.of_nat n * (bpw f * wpl f) /\
    dump f data address = Some (table f data address a n) /\
    shown data address (range a (Z.to_nat (Z.of_nat n * (bpw f * wpl f)))) = data.
Proof.
  intros f data address Hd Ha Hb Hw Hs. set (w := bpw f * wpl f) in *. assert (WP : 1 <= w) by (unfold w; nia).
  set (begin := address - Z.land address (w - 1)). set (last := address + Z.of_nat (length data)) in *.
  set (end_ := last + (w - 1) - Z.land (last + (w - 1)) (w - 1)).
  pose proof (lines_for_spec begin end_ w WP) as (S1 & S2).
  pose proof (land_le address (w - 1) ltac:(lia)) as L1. pose proof (land_le (last + (w - 1)) (w - 1) ltac:(lia)) as L2.
  assert (C : last <= begin + Z.of_nat (lines_for begin end_ w) * w) by (unfold end_ in *; lia).
  exists begin, (lines_for begin end_ w). split; [unfold begin; lia|]. split; [exact C|]. split.
  - apply dump_spec; try assumption; fold w; fold last; fold begin; fold end_; [unfold last in *; lia|lia|].
    destruct (Nat.eq_dec (lines_for begin end_ w) 0) as [E|E]; [rewrite E; unfold begin, last in *; lia|]. specialize (S2 E).
    replace (Z.of_nat (lines_for begin end_ w)) with (Z.of_nat (lines_for begin end_ w - 1) + 1) by lia. unfold end_ in *. nia.
  - unfold shown. change (flat_map _ ?l) with (flat_map (fun x => the (at_address data address x)) l).
    rewrite once by (fold last; nia). unfold from. replace (Z.to_nat (begin - address)) with O by (unfold begin; lia). reflexivity.
Qed.
Print Assumptions C65_dump.

(** If the octets of a line are a power of two, lines begin at multiples of it, and
    there is no line without data but for an empty dump. *)
Theorem C65_aligned : forall f data address k,
  octets data -> 0 <= address -> 1 <= bpw f -> 1 <= wpl f -> 0 <= k < 64 -> bpw f * wpl f = 2 ^ k ->
  address + Z.of_nat (length data) + bpw f * wpl f <= 2 ^ 64 ->
  exists a n, a mod (bpw f * wpl f) = 0 /\ a <= address < a + bpw f * wpl f /\
    address + Z.of_nat (length data) <= a + Z.of_nat n * (bpw f * wpl f) /\
    (n <> O -> a + Z.of_nat (n - 1) * (bpw f * wpl f) < address + Z.of_nat (length data)) /\
    dump f data address = Some (table f data address a n).
Proof.
  intros f data address k Hd Ha Hb Hw Hk EW Hs. set (w := bpw f * wpl f) in *. assert (WP : 1 <= w) by (unfold w; nia).
  set (begin := address - Z.land address (w - 1)). set (last := address + Z.of_nat (length data)) in *.
  set (end_ := last + (w - 1) - Z.land (last + (w - 1)) (w - 1)).
  pose proof (lines_for_spec begin end_ w WP) as (S1 & S2).
  pose proof (land_le address (w - 1) ltac:(lia)) as L1. pose proof (land_le (last + (w - 1)) (w - 1) ltac:(lia)) as L2.
  assert (O : forall x, Z.land x (w - 1) = x mod w).
  { intros x. rewrite EW. rewrite <- Z.land_ones by apply Hk. f_equal. rewrite Z.ones_equiv. lia. }
  assert (B : begin = w * (address / w)) by (unfold begin; rewrite O; pose proof (Z.div_mod address w); lia).
  assert (E : end_ = w * ((last + (w - 1)) / w)) by (unfold end_; rewrite O; pose proof (Z.div_mod (last + (w - 1)) w); lia).
  assert (C : last <= begin + Z.of_nat (lines_for begin end_ w) * w) by (unfold end_ in *; lia).
  assert (M : lines_for begin end_ w <> 0%nat -> begin + Z.of_nat (lines_for begin end_ w - 1) * w < last).
  { intros Hn. specialize (S2 Hn). pose proof (mult_step w _ _ _ _ _ WP B E S2). unfold end_ in *. lia. }
  exists begin, (lines_for begin end_ w). split; [rewrite B, Z.mul_comm; apply Z.mod_mul; lia|]. split; [unfold begin; lia|].
  split; [exact C|]. split; [exact M|].
  apply dump_spec; try assumption; fold w; fold last; fold begin; fold end_; [|lia|].
  - rewrite EW. apply Z.pow_lt_mono_r; lia.
  - destruct (Nat.eq_dec (lines_for begin end_ w) 0) as [E0|E0]; [rewrite E0; unfold begin, last in *; lia|]. specialize (S2 E0).
    assert (begin + Z.of_nat (lines_for begin end_ w) * w <= end_); [|unfold end_ in *; lia].
    replace (Z.of_nat (lines_for begin end_ w)) with (Z.of_nat (lines_for begin end_ w - 1) + 1) by lia.
    apply (mult_step w _ _ _ _ _ WP B E S2).
Qed.
Print Assumptions C65_aligned.

(** At the top of the address space nothing is printed at all. *)
Theorem C65_top_refuted : forall sh,
  dump (general sh) [1; 2; 3; 4] (2 ^ 64 - 8) = Some [].
Proof. reflexivity. Qed.
Print Assumptions C65_top_refuted.

(** Line sizes that are no power of two are not aligned, and a line without data may
    follow. *)
Theorem C65_unaligned_refuted :
  dump (mkformat (fun a => [48 + a]) false 46 0 3 1 [58] [32] [124] 45 32 [10]) [97; 98; 99] 0 =
    Some [48; 58; 54; 49; 54; 50; 54; 51; 32; 124; 97; 98; 99; 10; 51; 58; 45; 45; 45; 45; 45; 45; 32; 124; 32; 32; 32; 10].
Proof. reflexivity. Qed.
Print Assumptions C65_unaligned_refuted.

(** A case in which the hypotheses hold: three octets at address 14. *)
Example C65_example :
  octets [65; 0; 255] /\ bpw (general (fun a => [a])) * wpl (general (fun a => [a])) = 2 ^ 4 /\
  dump (general (fun a => [a])) [65; 0; 255] 14 = Some
    ([0; 58; 32] ++ repeat 32 8 ++ [32] ++ repeat 32 8 ++ [32] ++ repeat 32 8 ++ [32] ++
     repeat 32 4 ++ [52; 49; 48; 48; 32; 124] ++ repeat 32 14 ++ [65; 46; 124; 10] ++
     [16; 58; 32] ++ [102; 102] ++ repeat 32 6 ++ [32] ++ repeat 32 8 ++ [32] ++ repeat 32 8 ++ [32] ++ repeat 32 8 ++ [32; 124] ++
     [46] ++ repeat 32 15 ++ [124; 10]).
Proof. split; [repeat (apply Forall_cons; [red; lia|]); apply Forall_nil|]. split; reflexivity. Qed.
