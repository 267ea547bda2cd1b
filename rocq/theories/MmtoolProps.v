(** C99: reading and writing memory through the driver by options. *)

From Coq Require Import ZArith List Bool Lia.
From Verif Require Import CUtil CInt NumberModel DecModel NumberSpec NumberProofs MemtoolModel MemtoolSpec MemtoolProofs MmtoolModel MmtoolSpec MmtoolProofs.
From Verif Require DriverModel DriverSpec.
Import ListNotations.
Local Open Scope Z_scope.

(** With any honest driver, and whatever is in the fields that are not initialized, a list of
    options that makes sense does what it says, one option after the other, up to the first
    that fails or that asks to stop. *)
Theorem C99_options : forall base length opens busy driver junk junk' l m,
  honest base length busy driver -> eight_octets junk -> eight_octets junk' -> octet_memory m -> plan 4 false l ->
  exists fm m' o x, mmtool opens driver junk junk' l m = Some (fm, o, x) /\ (forall a, fm a = m' a) /\
    session base length opens busy (Setting 4 0 0) None m l m' o x.
Proof.
  intros base length opens busy driver junk junk' l m H J J' O P.
  destruct (plan_run base length opens busy driver H 4 false l P (Setting 4 0 0) None m (begin junk junk' m)) as (s & m' & o & x & E & A & Pr & S);
    [reflexivity|discriminate|split; cbn [begin op_ mask_ memory_ DriverModel.offset DriverModel.width DriverModel.value DriverModel.mask place width under]; auto|].
  - cbn; tauto.
  - intros a. reflexivity.
  - apply assign_octets, J.
  - discriminate.
  - exists (memory_ s), m', o, x. unfold mmtool. rewrite E. cbn [bind]. rewrite Pr. split; [reflexivity|]. split; [exact A|exact S].
Qed.
Print Assumptions C99_options.

(** The argument of -u is said to be in microseconds, and is used as ticks. *)
Theorem C99_wait_refuted : forall t v, spelled t v -> 0 < v -> waits t <> v * 1000.
Proof. intros t v S P. unfold waits. rewrite (proj1 (spelled_ok t v S)). cbn [fst]. lia. Qed.
Print Assumptions C99_wait_refuted.

(** "-8 0 -t -w 1": what -t finds before anything is read is what happened to be in memory. *)
Theorem C99_junk_refuted : forall driver m,
  mmtool true driver (repeat 0 8) (repeat 0 8) [Width 8 [48]; IfTrue; Write [49]] m = Some (m, [], 0) /\
  mmtool true driver (repeat 0 4 ++ [1; 0; 0; 0]) (repeat 0 8) [Width 8 [48]; IfTrue; Write [49]] m =
    (let '(rc, _, m') := driver m (DriverModel.mkcall DriverModel.WRITE (DriverModel.mkop 0 8 (1 :: repeat 0 7) (repeat 0 8)) true true) in
     Some (m', [], if rc <? 0 then 1 else 0)).
Proof.
  intros driver m. split; [vm_compute; reflexivity|].
  unfold mmtool. set (c := DriverModel.mkcall _ _ _ _).
  replace (options_ true driver [Width 8 [48]; IfTrue; Write [49]] (begin (repeat 0 4 ++ [1; 0; 0; 0]) (repeat 0 8) m))
    with (let '(rc, o, m') := driver m c in Some (Tool o 0 m' [], if rc <? 0 then 1 else 0)).
  - destruct (driver m c) as ((rc & o) & m'). reflexivity.
  - subst c. cbn [options_ option_].
    replace (argument [48]) with (fun (s : tool) (k : Z -> option (tool * bool * bool)) => k 0) by (vm_compute; reflexivity).
    cbn [bind]. replace (current _) with 4294967296 by (vm_compute; reflexivity). cbn [Z.eqb].
    replace (argument [49]) with (fun (s : tool) (k : Z -> option (tool * bool * bool)) => k 1) by (vm_compute; reflexivity).
    unfold control. cbn [negb]. replace (op_ (give _ 1)) with (DriverModel.mkop 0 8 (1 :: repeat 0 7) (repeat 0 8)) by (vm_compute; reflexivity).
    cbn [memory_ give with_op begin mask_ printed]. destruct (driver m _) as ((rc & o) & m'). cbn [sent bind fst snd]. destruct (rc <? 0); reflexivity.
Qed.
Print Assumptions C99_junk_refuted.

(** A bit that is not among the 64 is undefined; an option that there is not is no error. *)
Theorem C99_bit_refuted : forall opens driver junk junk' m, mmtool opens driver junk junk' [SetBit [54; 52]] m = None.
Proof. intros. reflexivity. Qed.
Print Assumptions C99_bit_refuted.
Theorem C99_unknown_refuted : forall opens driver junk junk' l m, mmtool opens driver junk junk' (Other :: l) m = mmtool opens driver junk junk' l m.
Proof. intros. reflexivity. Qed.
Print Assumptions C99_unknown_refuted.

(** A driver that is honest. *)
Definition some_driver (base length : Z) (m : Z -> Z) (c : DriverModel.call) : Z * DriverModel.op * (Z -> Z) :=
  let o := DriverModel.arg c in let w := DriverModel.width o in let a0 := base + DriverModel.offset o in
  if (DriverModel.offset o <=? length) && existsb (Z.eqb w) [1; 2; 4; 8] && (a0 mod w =? 0) && DriverModel.readable c &&
     match DriverModel.cmd c with DriverModel.OTHER _ => false | DriverModel.READ => DriverModel.writable c | _ => true end
  then
    (0,
     match DriverModel.cmd c with
     | DriverModel.READ => DriverModel.mkop (DriverModel.offset o) w
         (map (fun k => if Z.of_nat k <? w then m (a0 + Z.of_nat k) else nth k (DriverModel.value o) 0) (seq 0 8)) (DriverModel.mask o)
     | _ => o
     end,
     fun a => if (a0 <=? a) && (a <? a0 + w) then
       let v := nth (Z.to_nat (a - a0)) (DriverModel.value o) 0 in
       match DriverModel.cmd c with
       | DriverModel.WRITE => v
       | DriverModel.SET => Z.lor (Z.land (m a) (Z.lnot (nth (Z.to_nat (a - a0)) (DriverModel.mask o) 0))) v mod 2 ^ 8
       | DriverModel.CLEAR => Z.land (m a) (Z.lnot v) mod 2 ^ 8
       | _ => m a
       end else m a)
  else (-22, o, m).

(** "-1 3 -w 6 -s 1 -r -t -m 4 -S 3 -r -C 0 -4 99 -w 1 -r" on a device of 8 octets: 6 is
    written, becomes 7, which is printed, is not zero; becomes 11, which is printed, and then
    10; 99 is out of reach. *)
Definition some_options : list flag :=
  [Width 1 [51]; Write [54]; Set_ [49]; Read; IfTrue; Mask [52]; SetBit [51]; Read; ClearBit [48]; Width 4 [57; 57]; Write [49]; Read].
Example C99_example :
  match mmtool true (some_driver 16 8) (repeat 0 8) (repeat 0 8) some_options (fun _ => 0) with
  | Some (m, o, x) => map m [18; 19; 20] = [0; 10; 0] /\ o = [55; 10; 49; 49; 10] /\ x = 1
  | None => False
  end.
Proof. vm_compute. repeat split. Qed.
Lemma number_spelled d : 0 <= d < 2 ^ 64 -> spelled (dec d) d.
Proof. intros H. exists d. split; [apply (numeral_plain [] (dec d) d); [constructor|apply dec_body; lia]|]. destruct (Z.ltb_spec (Z.abs d) (2 ^ 64)); [rewrite Z.mod_small by lia; reflexivity|lia]. Qed.
Example C99_example_plan : plan 4 false some_options.
Proof.
  eapply plan_width; [cbn; tauto|apply (number_spelled 3); lia|].
  apply (plan_change _ _ (Write [54]) (ToValue 6)); [apply (number_spelled 6); lia|].
  apply (plan_change _ _ (Set_ [49]) (SetOnes 1)); [apply (number_spelled 1); lia|].
  apply plan_read. apply plan_condition; [cbn; tauto|]. eapply plan_mask; [apply (number_spelled 4); lia|].
  apply (plan_change _ _ (SetBit [51]) (SetOne 3)); [split; [apply (number_spelled 3); lia|lia]|]. apply plan_read.
  apply (plan_change _ _ (ClearBit [48]) (ClearOne 0)); [split; [apply (number_spelled 0); lia|lia]|].
  eapply plan_width; [cbn; tauto|apply (number_spelled 99); lia|].
  apply (plan_change _ _ (Write [49]) (ToValue 1)); [apply (number_spelled 1); lia|]. apply plan_read. apply plan_end.
Qed.
Example C99_example_driver : forall base length busy, honest base length busy (some_driver base length).
Proof.
  intros base length busy m c. unfold some_driver. set (o := DriverModel.arg c). set (w := DriverModel.width o). set (a0 := base + DriverModel.offset o).
  destruct (_ && _) eqn:T.
  - repeat rewrite andb_true_iff in T. destruct T as ((((T1 & T2) & T3) & T4) & T5).
    apply Z.leb_le in T1. apply Z.eqb_eq in T3. assert (W : In w [1; 2; 4; 8]).
    { apply existsb_exists in T2. destruct T2 as (x & I & E). apply Z.eqb_eq in E. subst x. exact I. }
    assert (W8 : 1 <= w <= 8) by (cbn in W; lia). split; [left; split; [reflexivity|]; split; [|split]|split; [discriminate|]].
    + split; [split; [exact T1|split; [exact W|exact T3]]|]. split; [exact T4|]. split; [|intros C; rewrite C in T5; exact T5].
      destruct (DriverModel.cmd c); cbn; try tauto. discriminate T5.
    + intros a. unfold DriverSpec.within, DriverSpec.octet_at. fold o. fold w. fold a0. split; intros A.
      * destruct (Z.leb_spec a0 a); [|lia]. destruct (Z.ltb_spec a (a0 + w)); [|lia]. cbn [andb].
        destruct (DriverModel.cmd c); try reflexivity; intros i I; rewrite Z.mod_pow2_bits_low by lia.
        -- rewrite Z.lor_spec, Z.land_spec, Z.lnot_spec by lia. reflexivity.
        -- rewrite Z.land_spec, Z.lnot_spec by lia. reflexivity.
      * destruct (Z.leb_spec a0 a); [|reflexivity]. destruct (Z.ltb_spec a (a0 + w)); [lia|]. reflexivity.
    + unfold DriverSpec.gives. fold o. destruct (DriverModel.cmd c); try reflexivity. cbn [DriverModel.offset DriverModel.width DriverModel.mask DriverModel.value]. fold w. repeat split.
      intros k K. fold a0. do 8 (destruct k as [|k]; [reflexivity|]). lia.
    + fold o. intros O V M a. destruct ((a0 <=? a) && (a <? a0 + w)) eqn:A; [|apply O]. apply andb_true_iff in A. destruct A as (A1 & A2). apply Z.leb_le in A1. apply Z.ltb_lt in A2.
      destruct (DriverModel.cmd c); try apply O; try (apply Z.mod_pos_bound; reflexivity). apply V. lia.
  - split; [right; split; [lia|]; split; [|split; reflexivity]|split; [discriminate|intros O _ _; exact O]].
    right. intros ((P1 & P2 & P3) & R & C & Wr). fold o in P1, P2, P3. fold w in P2, P3. fold a0 in P3.
    rewrite (proj2 (Z.leb_le _ _) P1), (proj2 (Z.eqb_eq _ _) P3), R in T.
    assert (E : existsb (Z.eqb w) [1; 2; 4; 8] = true) by (apply existsb_exists; exists w; split; [exact P2|apply Z.eqb_refl]). rewrite E in T. cbn [andb] in T.
    destruct (DriverModel.cmd c); try discriminate T; [rewrite (Wr eq_refl) in T; discriminate T|]. cbn in C. intuition discriminate.
Qed.
