(** Property C71. *)

From Coq Require Import ZArith List Bool Lia.
From Verif Require Import CInt CUtil SerialModel SerialSpec SerialProofs.
Import ListNotations.
Local Open Scope Z_scope.

(** A terminal is set to what is asked for, if that can be, and is transparent
    afterwards; nothing else is changed. *)
Theorem C71_set : forall t bitspersecond databits_ paritybit stopbits modemcontrol xonxoff rtscts,
  5 <= databits_ <= 8 -> 1 <= stopbits <= 2 -> (bitspersecond = -1 \/ In bitspersecond (map fst codes)) ->
  exists t', serial_set (Some t) true true bitspersecond databits_ paritybit stopbits modemcontrol xonxoff rtscts = (0, Some t') /\
    databits t' = databits_ /\ two_stop_bits t' = (stopbits =? 2) /\ receiver t' = true /\
    parity_is t' = (if paritybit =? 0 then NoParity else if Z.odd paritybit then Odd else Even) /\
    hangs_up t' = modemcontrol /\ ignores_modem t' = negb modemcontrol /\
    rts_cts t' = rtscts /\ xon_out t' = xonxoff /\ xon_in t' = xonxoff /\
    transparent t' /\
    (bitspersecond = -1 -> speed_code t' = speed_code t /\ c_ispeed t' = c_ispeed t /\ c_ospeed t' = c_ospeed t) /\
    (bitspersecond <> -1 -> In (bitspersecond, speed_code t') codes /\ c_ispeed t' = speed_code t' /\ c_ospeed t' = speed_code t') /\
    same_but (c_iflag t') (c_iflag t) ([0; 1; 3; 5; 6; 7; 8; 10; 12] ++ if bitspersecond =? -1 then [] else [31]) /\
    same_but (c_oflag t') (c_oflag t) [0] /\
    same_but (c_cflag t') (c_cflag t) ([4; 5; 6; 7; 8; 9; 10; 11; 31] ++ if bitspersecond =? -1 then [] else [0; 1; 2; 3; 12]) /\
    same_but (c_lflag t') (c_lflag t) [0; 1; 3; 6; 15].
Proof.
  intros t b d p st m x r Hd Hst Hb. destruct (data_some d Hd) as (data & ED).
  assert (ES : exists stop, stop_of st = Some stop) by (assert (st = 1 \/ st = 2) as [->| ->] by lia; eexists; reflexivity). destruct ES as (stop & ES).
  assert (EB : exists speed, speed_of b = Some speed /\ valid_speed speed /\
    match speed with None => b = -1 | Some c => b <> -1 /\ In (b, c) codes end).
  { destruct Hb as [->|Hb]; [exists None; repeat split|]. apply in_map_iff in Hb. destruct Hb as ([b' c] & E & Hc). cbn in E. subst b'.
    exists (Some c). split; [apply speed_some, Hc|]. split; [apply (speed_code_range b c Hc)|]. split; [|exact Hc].
    intros ->. cbn in Hc. repeat destruct Hc as [Hc|Hc]; try discriminate Hc. contradiction. }
  destruct EB as (speed & EB & VS & CB). unfold serial_set. rewrite ED, ES, EB. cbn [negb].
  apply data_inv in ED. destruct ED as (_ & ED). apply stop_inv in ES.
  assert (HD : In data [0; 16; 32; 48]) by (subst data; cbn; lia).
  assert (HT : In stop [0; 64]) by (cbn; lia).
  assert (HP : In (parity_of p) [0; 256; 768]) by (destruct (parity_cases p) as [(_ & ->)|[(_ & _ & ->)|(_ & _ & ->)]]; cbn; auto).
  eexists. split; [reflexivity|]. set (par := parity_of p) in *. set (t' := settings t speed data par stop m x r).
  pose proof (cflag_table t speed data par stop m x r VS HD HP HT) as CT. fold t' in CT.
  pose proof (iflag_table t speed data par stop m x r VS) as IT. fold t' in IT.
  pose proof (code_same t speed data par stop m x r VS HD HP HT) as CS. fold t' in CS.
  pose proof (speed_same t speed data par stop m x r VS) as SS. fold t' in SS. destruct SS as (SI & SO & VT & VM).
  split. { unfold databits. rewrite two_bits. rewrite (CT 4), (CT 5) by (cbn; auto). cbn [Z.eqb Pos.eqb orb].
    assert (d = 5 \/ d = 6 \/ d = 7 \/ d = 8) as [->|[->|[->| ->]]] by lia; subst data; reflexivity. }
  split. { unfold two_stop_bits. rewrite (CT 6) by (cbn; tauto). cbn [Z.eqb Pos.eqb orb]. destruct ES as [(-> & ->)|(-> & ->)]; reflexivity. }
  split. { unfold receiver. rewrite (CT 7) by (cbn; tauto). reflexivity. }
  split. { unfold parity_is. rewrite (CT 8), (CT 9) by (cbn; tauto). cbn [Z.eqb Pos.eqb orb]. unfold par.
    destruct (parity_cases p) as [(-> & ->)|[(N & -> & ->)|(N & -> & ->)]]; [reflexivity| |]; (destruct (Z.eqb_spec p 0); [contradiction|reflexivity]). }
  split. { unfold hangs_up. rewrite (CT 10) by (cbn; tauto). reflexivity. }
  split. { unfold ignores_modem. rewrite (CT 11) by (cbn; tauto). reflexivity. }
  split. { unfold rts_cts. rewrite (CT 31) by (cbn; tauto). reflexivity. }
  split. { unfold xon_out. rewrite (IT 10) by (cbn; tauto). reflexivity. }
  split. { unfold xon_in. rewrite (IT 12) by (cbn; tauto). reflexivity. }
  split.
  { split; [|split; [|split; [|auto]]].
    - intros i Hi. rewrite IT by (revert Hi; apply in_sub; reflexivity). cbn in Hi. repeat destruct Hi as [<-|Hi]; try reflexivity. contradiction.
    - unfold t'. rewrite oflag_same by lia. reflexivity.
    - intros i Hi. unfold t'. rewrite lflag_same by (cbn in Hi; lia). cbn in Hi. repeat destruct Hi as [<-|Hi]; try reflexivity. contradiction. }
  split. { intros ->. destruct speed as [c|]; [destruct CB as (CB & _); congruence|]. auto. }
  split. { intros N. destruct speed as [c|]; [|contradiction]. rewrite CS. destruct CB as (_ & CB). auto. }
  assert (EQ : (b =? -1) = match speed with None => true | Some _ => false end).
  { destruct speed as [c|]; [destruct (Z.eqb_spec b (-1)); [destruct CB; contradiction|reflexivity]|]. subst b. reflexivity. }
  rewrite EQ. split. { intros i Hi N. apply iflag_same; [exact VS|exact Hi|]. destruct speed; exact N. }
  split. { intros i Hi N. unfold t'. rewrite oflag_same by exact Hi. destruct (Z.eqb_spec i 0) as [->|]; [exfalso; apply N; left; reflexivity|reflexivity]. }
  split. { intros i Hi N. apply cflag_same; try assumption. destruct speed; exact N. }
  intros i Hi N. unfold t'. rewrite lflag_same by exact Hi.
  destruct (Z.eqb_spec i 0) as [->|]; [exfalso; apply N; cbn; tauto|]. destruct (Z.eqb_spec i 1) as [->|]; [exfalso; apply N; cbn; tauto|].
  destruct (Z.eqb_spec i 3) as [->|]; [exfalso; apply N; cbn; tauto|]. destruct (Z.eqb_spec i 6) as [->|]; [exfalso; apply N; cbn; tauto|].
  destruct (Z.eqb_spec i 15) as [->|]; [exfalso; apply N; cbn; tauto|]. reflexivity.
Qed.
Print Assumptions C71_set.

(** Whatever cannot be is refused, and nothing is changed; so it is if the descriptor
    is no terminal, or the system fails. *)
Theorem C71_refused : forall terminal gets sets bitspersecond databits_ paritybit stopbits modemcontrol xonxoff rtscts rc terminal',
  serial_set terminal gets sets bitspersecond databits_ paritybit stopbits modemcontrol xonxoff rtscts = (rc, terminal') ->
  (rc = 0 \/ (rc = -1 /\ terminal' = terminal)) /\
  (rc = 0 <-> 5 <= databits_ <= 8 /\ 1 <= stopbits <= 2 /\ (bitspersecond = -1 \/ In bitspersecond (map fst codes)) /\
              terminal <> None /\ gets = true /\ sets = true).
Proof.
  intros terminal gets sets b d p st m x r rc terminal' E. unfold serial_set in E.
  destruct (speed_of b) as [speed|] eqn:EB.
  2:{ injection E as <- <-. split; [auto|]. split; [discriminate|]. intros (_ & _ & [->|B] & _); [discriminate EB|].
      apply in_map_iff in B. destruct B as ([b' c] & Q & B). cbn in Q. subst b'. rewrite (speed_some b c B) in EB. discriminate EB. }
  destruct (data_of d) as [data|] eqn:ED.
  2:{ injection E as <- <-. split; [auto|]. split; [discriminate|]. intros (D & _). destruct (data_some d D) as (c & Q). congruence. }
  destruct (stop_of st) as [stop|] eqn:ES.
  2:{ injection E as <- <-. split; [auto|]. split; [discriminate|]. intros (_ & S & _). assert (st = 1 \/ st = 2) as [->| ->] by lia; discriminate ES. }
  destruct terminal as [t|].
  2:{ injection E as <- <-. split; [auto|]. split; [discriminate|]. intros (_ & _ & _ & T & _). congruence. }
  destruct gets; cbn [negb] in E; [|injection E as <- <-; split; [auto|]; split; [discriminate|]; intros (_ & _ & _ & _ & G & _); discriminate G].
  destruct sets; cbn [negb] in E; [|injection E as <- <-; split; [auto|]; split; [discriminate|]; intros (_ & _ & _ & _ & _ & G); discriminate G].
  injection E as <- <-. split; [auto|]. split; [|auto]. intros _. apply data_inv in ED. apply stop_inv in ES. apply speed_inv in EB.
  split; [lia|]. split; [lia|]. split; [|split; [discriminate|auto]].
  destruct EB as [(EB & _)|(_ & c & _ & C)]; [auto|right]. apply in_map_iff. exists (b, c). auto.
Qed.
Print Assumptions C71_refused.

(** A raw terminal is transparent, with eight bits, no parity and no modem; the rest is
    as it was. *)
Theorem C71_raw : forall t, exists t', serial_raw (Some t) true true = (0, Some t') /\
  transparent t' /\ databits t' = 8 /\ parity_is t' = NoParity /\ receiver t' = true /\ ignores_modem t' = true /\ xon_out t' = false /\
  c_ispeed t' = c_ispeed t /\ c_ospeed t' = c_ospeed t /\
  same_but (c_iflag t') (c_iflag t) [0; 1; 3; 5; 6; 7; 8; 10] /\
  same_but (c_oflag t') (c_oflag t) [0] /\
  same_but (c_cflag t') (c_cflag t) [4; 5; 7; 8; 11] /\
  same_but (c_lflag t') (c_lflag t) [0; 1; 3; 6; 15].
Proof.
  intros t. eexists. split; [reflexivity|].
  split. { split; [|split; [|split; [|auto]]]; cbn [c_iflag c_oflag c_lflag].
    - intros i Hi. rewrite off_bit by (cbn in Hi; lia). cbn [In] in Hi. repeat destruct Hi as [<-|Hi]; try apply andb_false_r. contradiction.
    - rewrite off_bit by lia. apply andb_false_r.
    - intros i Hi. rewrite off_bit by (cbn in Hi; lia). cbn [In] in Hi. repeat destruct Hi as [<-|Hi]; try apply andb_false_r. contradiction. }
  split. { unfold databits. rewrite two_bits. cbn [c_cflag]. rewrite !Z.lor_spec, !off_bit by lia. generalize (Z.testbit (c_cflag t) 4) (Z.testbit (c_cflag t) 5).
    intros [|] [|]; reflexivity. }
  split. { unfold parity_is. cbn [c_cflag]. rewrite !Z.lor_spec, !off_bit by lia. generalize (Z.testbit (c_cflag t) 8). intros [|]; reflexivity. }
  split. { unfold receiver. cbn [c_cflag]. rewrite !Z.lor_spec. apply orb_true_r. }
  split. { unfold ignores_modem. cbn [c_cflag]. rewrite !Z.lor_spec. apply orb_true_r. }
  split. { unfold xon_out. cbn [c_iflag]. rewrite off_bit by lia. apply andb_false_r. }
  split; [reflexivity|]. split; [reflexivity|]. cbn [c_iflag c_oflag c_cflag c_lflag].
  split. { intros i Hi N. rewrite off_bit by exact Hi. rewrite (outside [0; 1; 3; 5; 6; 7; 8; 10] [bor [IGNBRK; BRKINT; PARMRK; ISTRIP; INLCR; IGNCR; ICRNL; IXON]] i (bor [IGNBRK; BRKINT; PARMRK; ISTRIP; INLCR; IGNCR; ICRNL; IXON]) eq_refl Hi N) by (left; reflexivity). apply andb_true_r. }
  split. { intros i Hi N. rewrite off_bit by exact Hi. rewrite (outside [0] [bor [OPOST]] i (bor [OPOST]) eq_refl Hi N) by (left; reflexivity). apply andb_true_r. }
  split. { intros i Hi N. rewrite Z.lor_spec, off_bit by exact Hi.
    rewrite (outside [4; 5; 7; 8; 11] [bor [CSIZE; PARENB]; bor [CS8; CREAD; CLOCAL]] i (bor [CSIZE; PARENB]) eq_refl Hi N) by (left; reflexivity).
    rewrite (outside [4; 5; 7; 8; 11] [bor [CSIZE; PARENB]; bor [CS8; CREAD; CLOCAL]] i (bor [CS8; CREAD; CLOCAL]) eq_refl Hi N) by (right; left; reflexivity).
    rewrite andb_true_r. apply orb_false_r. }
  intros i Hi N. rewrite off_bit by exact Hi. rewrite (outside [0; 1; 3; 6; 15] [bor [ECHO; ECHONL; ICANON; ISIG; IEXTEN]] i (bor [ECHO; ECHONL; ICANON; ISIG; IEXTEN]) eq_refl Hi N) by (left; reflexivity). apply andb_true_r.
Qed.
Print Assumptions C71_raw.

(** A case in which the hypotheses hold: the settings of a Linux terminal to 115200 8N1
    with hardware flow control. *)
Example C71_example :
  serial_set (Some (mktermios 0x500 0x5 0xbf 0x8a3b 0 1 15 15)) true true 115200 8 0 1 false false true =
    (0, Some (mktermios 0 0x4 0x800018b2 0xa30 0 1 0x1002 0x1002)).
Proof. vm_compute. reflexivity. Qed.
Print Assumptions C71_example.
