(** The properties: memory that is read and written by a list of options. *)

From Coq Require Import ZArith List Bool Lia.
From Verif Require Import CUtil CInt NumberSpec NumberProofs DecModel DecProofs MemtoolModel MemtoolSpec MemtoolProofs.
Import ListNotations.
Local Open Scope Z_scope.

(** After a region has been chosen the options do to it what they say: the memory, what is
    printed, the accesses that are made, and the exit status. *)
Theorem C94_region : forall map frequency sa start sl len l m m' o b x,
  spelled sa start -> spelled sl len -> len <> 0 -> octet_memory m -> session map (Some (start, len)) (Setting 0 0 0) None m l m' o b x ->
  exists fm, memtool map frequency (Region sa :: Extent sl :: l) m = Some (fm, o, b, x) /\ forall a, fm a = m' a.
Proof.
  intros map fq sa start sl len l m m' o b x A L N O S. unfold memtool. cbn [options apply]. rewrite (arg_ok sa _ start _ A). cbn [bind]. rewrite (arg_ok sl _ len _ L). cbn [bind].
  match goal with |- context [options map fq l ?s] => destruct (session_run map fq _ _ _ _ _ _ _ _ _ S s) as (s' & E & M & Oo & B) end.
  - split; cbn; auto; [lia|intros a; reflexivity].
  - rewrite E. cbn [bind]. rewrite Oo, B. cbn. exists (mem s'). split; [reflexivity|exact M].
Qed.
Print Assumptions C94_region.
(** The same, without a region, for addresses. *)
Theorem C94_addresses : forall map frequency l m m' o b x, octet_memory m -> session map None (Setting 0 0 0) None m l m' o b x ->
  exists fm, memtool map frequency l m = Some (fm, o, b, x) /\ forall a, fm a = m' a.
Proof.
  intros map fq l m m' o b x O S. unfold memtool. destruct (session_run map fq _ _ _ _ _ _ _ _ _ S (init m)) as (s' & E & M & Oo & B).
  - split; cbn; auto; [lia|intros a; reflexivity].
  - rewrite E. cbn [bind]. rewrite Oo, B. cbn. exists (mem s'). split; [reflexivity|exact M].
Qed.
Print Assumptions C94_addresses.
(** Whatever there is in memory, something happens by any list of options that makes sense,
    and the exit status is zero. *)
Theorem C94_always : forall map region l m, octet_memory m -> plan map region (Setting 0 0 0) false l ->
  exists m' o b, session map region (Setting 0 0 0) None m l m' o b 0.
Proof. intros map region l m O P. apply (plan_session map region _ false l P m O None). discriminate. Qed.
Print Assumptions C94_always.
(** Nothing outside of the region is read or written. *)
Theorem C94_confined : forall map start len l m m' o b x, session map (Some (start, len)) (Setting 0 0 0) None m l m' o b x ->
  Forall (within start len) b /\ forall a, ~ start <= a < start + len -> m' a = m a.
Proof. intros map start len l m m' o b x S. apply (session_within _ _ start len _ _ _ _ _ _ _ _ S eq_refl). cbn. lia. Qed.
Print Assumptions C94_confined.

Lemma digit_spelled d : 0 <= d < 10 -> spelled (dec d) d.
Proof. intros H. exists d. split; [apply (numeral_plain [] (dec d) d); [constructor|apply dec_body; lia]|]. destruct (Z.ltb_spec (Z.abs d) (2 ^ 64)); [rewrite Z.mod_small by lia; reflexivity|lia]. Qed.
(** "-a 4 -l 8 -2 2 -r -t -m 7 -s 1 -C 9 -r": at six, the halfword 0x0706 is read, is not zero,
    becomes 0x0701, then 0x0501, and is read. *)
Example C94_example : let l := [Width 2 [50]; Read; IfTrue; Mask [55]; Set_ [49]; ClearBit [57]; Read] in
  plan (fun _ _ => true) (Some (4, 8)) (Setting 0 0 0) false l /\ octet_memory (fun a => a mod 256) /\ spelled [52] 4 /\ spelled [56] 8 /\
  match memtool (fun _ _ => true) 1000000000 (Region [52] :: Extent [56] :: l) (fun a => a mod 256) with
  | Some (m, o, b, x) => (List.map m [5; 6; 7; 8], o, b, x) = ([5; 1; 5; 8], [49; 55; 57; 56; 10; 49; 50; 56; 49; 10], [Load 6 2; Load 6 2; Store 6 2 1793; Load 6 2; Store 6 2 1281; Load 6 2], 0)
  | None => False
  end.
Proof.
  cbv zeta. assert (Lo : located (fun _ _ => true) (Some (4, 8)) (Setting 2 2 0) 6 /\ located (fun _ _ => true) (Some (4, 8)) (Setting 2 2 7) 6) by (split; (split; [cbn; tauto|split; [reflexivity|repeat split; cbn; lia]])). destruct Lo as (L1 & L2).
  split; [|split; [intros a; apply Z.mod_pos_bound; reflexivity|split; [apply (digit_spelled 4); lia|split; [apply (digit_spelled 8); lia|vm_compute; reflexivity]]]].
  eapply plan_width; [cbn; tauto|apply (digit_spelled 2); lia|]. eapply plan_read; [exact L1|]. apply plan_condition; [cbn; tauto|]. eapply plan_mask; [apply (digit_spelled 7); lia|].
  eapply (plan_change _ _ _ _ 6 (Set_ [49]) (SetOnes 1)); [exact L2|apply (digit_spelled 1); lia|]. eapply (plan_change _ _ _ _ 6 (ClearBit [57]) (ClearOne 9)); [exact L2|split; [apply (digit_spelled 9); lia|cbn; lia]|]. eapply plan_read; [exact L2|]. apply plan_end.
Qed.

(** But, a place outside of the region is not refused: it is undefined. *)
Theorem C94_bounds_refuted : forall map frequency sa start sl len sp p m, spelled sa start -> spelled sl len -> len <> 0 -> spelled sp p -> len <= p -> map start len = true ->
  memtool map frequency [Region sa; Extent sl; Width 1 sp; Read] m = None.
Proof.
  intros map fq sa start sl len sp p m A L N P H M. unfold memtool. cbn [options apply]. rewrite (arg_ok sa _ start _ A). cbn [bind]. rewrite (arg_ok sl _ len _ L). cbn [bind]. rewrite (arg_ok sp _ p _ P). cbn [bind options].
  unfold operate. cbn [base extent offset size address set_base set_address set_extent set_value set_place init value Z.eqb Pos.eqb orb]. destruct (Z.eqb_spec len 0); [contradiction|]. rewrite M. cbn [base extent offset size address set_base set_address set_extent set_value set_place init value Z.eqb Pos.eqb orb]. destruct (Z.eqb_spec len 0); [contradiction|]. destruct (Z.leb_spec (start + p + 1) (start + len)); [lia|]. rewrite andb_false_r. reflexivity.
Qed.
Print Assumptions C94_bounds_refuted.
(** An address without a length is ignored. *)
Theorem C94_address_refuted : forall map frequency sa start sp p m, octet_memory m -> spelled sa start -> spelled sp p -> map p 1 = true ->
  memtool map frequency [Region sa; Width 1 sp; Read] m = Some (m, dec (m p) ++ [10], [Load p 1], 0).
Proof.
  intros map fq sa start sp p m O A P M. unfold memtool. cbn [options apply]. rewrite (arg_ok sa _ start _ A). cbn [bind]. rewrite (arg_ok sp _ p _ P). cbn [bind options].
  unfold operate. cbn [base extent offset size set_base set_address set_value set_place init value Z.eqb Pos.eqb orb]. rewrite M. cbn [base extent offset size set_base set_address set_value set_place init value Z.eqb Pos.eqb orb].
  rewrite Z.mod_1_r. destruct (Z.leb_spec p p); [|lia]. destruct (Z.leb_spec (p + 1) (p + 1)); [|lia]. cbn [andb Z.eqb operate_type bind fst snd options]. cbn [mem out bus set_base set_value add_out set_mem set_address set_place init value extent Z.eqb app].
  change (Z.to_nat 1) with 1%nat. cbn [load]. rewrite Z.mul_0_r, Z.add_0_r. rewrite number_dec by (pose proof (O p); lia). reflexivity.
Qed.
Print Assumptions C94_address_refuted.
(** What -t asks is not the result of the last operation but the last number of any option:
    here nothing is written although what is read is not zero; and here it is although zero. *)
Theorem C94_last_refuted :
  match memtool (fun _ _ => true) 1000000000 [Width 1 [56]; Read; Width 1 [48]; IfTrue; Write [57]] (fun _ => 1) with
  | Some (m, o, b, x) => m 0 = 1 /\ o = [49; 10] /\ b = [Load 8 1] /\ x = 0
  | None => False end /\
  match memtool (fun _ _ => true) 1000000000 [Width 1 [56]; Read; Width 1 [52]; IfTrue; Write [57]] (fun _ => 0) with
  | Some (m, o, b, x) => m 4 = 9 /\ o = [48; 10] /\ b = [Load 8 1; Store 4 1 9] /\ x = 0
  | None => False end.
Proof. vm_compute. repeat split. Qed.
Print Assumptions C94_last_refuted.
(** When the length is set to zero after a region was used the next place is not that address
    but the start of the region. *)
Theorem C94_region_refuted :
  match memtool (fun _ _ => true) 1000000000 [Region [52]; Extent [56]; Width 1 [49]; Read; Extent [48]; Width 1 [57]; Write [55]] (fun _ => 0) with
  | Some (m, o, b, x) => m 4 = 7 /\ m 9 = 0 /\ b = [Load 5 1; Store 4 1 7] /\ x = 0
  | None => False end.
Proof. vm_compute. repeat split. Qed.
Print Assumptions C94_region_refuted.
(** A bit that is not in the word: nothing is set, or it is undefined. *)
Theorem C94_bit_refuted :
  match memtool (fun _ _ => true) 1000000000 [Width 1 [48]; SetBit [56]] (fun _ => 1) with
  | Some (m, o, b, x) => b = [Load 0 1; Store 0 1 1] /\ x = 0
  | None => False end /\
  memtool (fun _ _ => true) 1000000000 [Width 1 [48]; SetBit [51; 49]] (fun _ => 1) = None /\
  memtool (fun _ _ => true) 1000000000 [Width 8 [48]; SetBit [54; 52]] (fun _ => 1) = None.
Proof. vm_compute. repeat split. Qed.
Print Assumptions C94_bit_refuted.
