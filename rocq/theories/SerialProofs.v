From Coq Require Import ZArith List Bool Lia.
From Verif Require Import CInt CUtil SerialModel SerialSpec.
Import ListNotations.
Local Open Scope Z_scope.

Lemma bits32 i : 0 <= i < 32 -> In i [0;1;2;3;4;5;6;7;8;9;10;11;12;13;14;15;16;17;18;19;20;21;22;23;24;25;26;27;28;29;30;31].
Proof. intros H. assert (E : exists n, (n < 32)%nat /\ i = Z.of_nat n) by (exists (Z.to_nat i); lia). destruct E as (n & Hn & ->).
  do 32 (destruct n as [|n]; [cbn; tauto|]). lia. Qed.

Lemma off_bit x l i : 0 <= i < 32 -> Z.testbit (off x l) i = Z.testbit x i && negb (Z.testbit (bor l) i).
Proof.
  intros H. unfold off. rewrite Z.land_spec. unfold u32. change 4294967296 with (2 ^ 32).
  rewrite Z.mod_pow2_bits_low by lia. rewrite Z.lnot_spec by lia. reflexivity.
Qed.

Lemma two_bits x : (x / 16) mod 4 = Z.b2z (Z.testbit x 4) + 2 * Z.b2z (Z.testbit x 5).
Proof.
  rewrite !Z.testbit_spec' by lia. change (2 ^ 4) with 16. change (2 ^ 5) with (16 * 2). rewrite <- Z.div_div by lia.
  change 4 with (2 * 2). apply Z.rem_mul_r; lia.
Qed.

(** The words of the settings, bit by bit. *)
Section bits.
  Variables (t : termios) (speed : option Z) (data par stop : Z) (m x r : bool).
  Let t' := settings t speed data par stop m x r.

  Lemma cflag_bit i : 0 <= i < 32 ->
    Z.testbit (c_cflag t') i =
      let b := (((((((Z.testbit (c_cflag t) i && negb (Z.testbit (bor [CSIZE; PARENB; PARODD; CSTOPB; CLOCAL; HUPCL; CRTSCTS]) i)) ||
               Z.testbit CREAD i) || Z.testbit data i) || Z.testbit par i) || Z.testbit stop i) || Z.testbit (if m then 0 else CLOCAL) i) ||
               Z.testbit (if m then HUPCL else 0) i) || Z.testbit (if r then CRTSCTS else 0) i in
      match speed with
      | None => b
      | Some s => (b && negb (Z.testbit CBAUD i)) || Z.testbit s i
      end.
  Proof.
    intros H. unfold t', settings. destruct speed as [s|]; cbn [c_cflag cfsetispeed cfsetospeed fold_left]; rewrite ?Z.lor_spec, ?off_bit, ?Z.lor_spec, ?off_bit, ?Z.lor_spec, ?off_bit by exact H; cbn zeta; [|reflexivity].
    change (bor [CBAUD]) with CBAUD. destruct (Z.testbit CBAUD i); cbn [negb]; rewrite ?andb_false_r, ?andb_true_r; cbn [orb]; [reflexivity|].
    rewrite <- orb_assoc. f_equal. destruct (Z.testbit s i); reflexivity.
  Qed.

  Lemma iflag_bit i : 0 <= i < 32 ->
    Z.testbit (c_iflag t') i =
      let b := ((Z.testbit (c_iflag t) i && negb (Z.testbit (bor [IGNBRK; BRKINT; PARMRK; ISTRIP; INLCR; IGNCR; ICRNL; IXON; IXOFF]) i)) ||
                Z.testbit (if x then IXON else 0) i) || Z.testbit (if x then IXOFF else 0) i in
      match speed with
      | None => b
      | Some s => if s =? 0 then b || Z.testbit IBAUD0 i else b && negb (Z.testbit IBAUD0 i)
      end.
  Proof.
    intros H. unfold t', settings. destruct speed as [s|]; cbn [c_iflag cfsetispeed cfsetospeed]; [|rewrite !Z.lor_spec, off_bit by exact H; reflexivity].
    destruct (s =? 0); rewrite ?Z.lor_spec, ?off_bit, ?Z.lor_spec, ?off_bit by exact H; reflexivity.
  Qed.

  Lemma oflag_bit i : 0 <= i < 32 -> Z.testbit (c_oflag t') i = Z.testbit (c_oflag t) i && negb (Z.testbit OPOST i).
  Proof. intros H. unfold t', settings. destruct speed; cbn [c_oflag cfsetispeed cfsetospeed]; apply (off_bit _ [OPOST]), H. Qed.

  Lemma lflag_bit i : 0 <= i < 32 ->
    Z.testbit (c_lflag t') i = Z.testbit (c_lflag t) i && negb (Z.testbit (bor [ECHO; ECHONL; ICANON; ISIG; IEXTEN]) i).
  Proof. intros H. unfold t', settings. destruct speed; cbn [c_lflag cfsetispeed cfsetospeed]; apply off_bit, H. Qed.
End bits.

(** The arguments that are accepted. *)
Lemma data_inv d c : data_of d = Some c -> 5 <= d <= 8 /\ c = (d - 5) * 16.
Proof.
  unfold data_of. destruct (Z.eqb_spec d 5) as [->|]; [intros E; injection E as <-; split; [lia|reflexivity]|].
  destruct (Z.eqb_spec d 6) as [->|]; [intros E; injection E as <-; split; [lia|reflexivity]|].
  destruct (Z.eqb_spec d 7) as [->|]; [intros E; injection E as <-; split; [lia|reflexivity]|].
  destruct (Z.eqb_spec d 8) as [->|]; [intros E; injection E as <-; split; [lia|reflexivity]|]. discriminate.
Qed.

Lemma stop_inv d c : stop_of d = Some c -> (d = 1 /\ c = 0) \/ (d = 2 /\ c = 64).
Proof.
  unfold stop_of. destruct (Z.eqb_spec d 1) as [->|]; [intros E; injection E as <-; auto|].
  destruct (Z.eqb_spec d 2) as [->|]; [intros E; injection E as <-; auto|]. discriminate.
Qed.

Lemma speed_inv b s : speed_of b = Some s -> (b = -1 /\ s = None) \/ (b <> -1 /\ exists c, s = Some c /\ In (b, c) codes).
Proof.
  unfold speed_of. destruct (Z.eqb_spec b (-1)); [intros E; injection E as <-; auto|]. intros E. right. split; [assumption|].
  repeat match type of E with (if ?x =? ?y then _ else _) = _ => destruct (Z.eqb_spec x y) as [->|]; [injection E as <-; eexists; split; [reflexivity|]; cbn; tauto|] end.
  discriminate E.
Qed.

Lemma speed_code_range b c : In (b, c) codes -> In c [0; 1; 2; 3; 4; 5; 6; 7; 8; 9; 10; 11; 12; 13; 14; 15; 4097; 4098; 4099] /\ (c = 0 <-> b = 0).
Proof. cbn. intros H. repeat destruct H as [H|H]; try contradiction; injection H as <- <-; (split; [tauto|split; [lia|lia]]). Qed.

Lemma data_some d : 5 <= d <= 8 -> exists c, data_of d = Some c.
Proof. intros H. assert (d = 5 \/ d = 6 \/ d = 7 \/ d = 8) as [->|[->|[->| ->]]] by lia; eexists; reflexivity. Qed.

Lemma speed_some b c : In (b, c) codes -> speed_of b = Some (Some c).
Proof. cbn. intros H. repeat destruct H as [H|H]; try contradiction; injection H as <- <-; reflexivity. Qed.

Lemma parity_cases p : (p = 0 /\ parity_of p = 0) \/ (p <> 0 /\ Z.odd p = true /\ parity_of p = 768) \/ (p <> 0 /\ Z.odd p = false /\ parity_of p = 256).
Proof.
  unfold parity_of. destruct (Z.eqb_spec p 0); [auto|]. right. rewrite <- Z.negb_even.
  destruct (Z.eqb_spec (Z.rem p 2) 0) as [E|E]; [right|left]; (split; [assumption|]); (split; [|reflexivity]).
  - apply Z.rem_divide in E; [|lia]. destruct E as (k & ->). rewrite Z.mul_comm, Z.even_mul. reflexivity.
  - destruct (Z.even p) eqn:V; [|reflexivity]. apply Z.even_spec in V. destruct V as (k & ->). exfalso. apply E. rewrite Z.mul_comm. apply Z.rem_mul. lia.
Qed.

Definition speeds : list Z := [0; 1; 2; 3; 4; 5; 6; 7; 8; 9; 10; 11; 12; 13; 14; 15; 4097; 4098; 4099].
Definition valid_speed (s : option Z) : Prop := match s with None => True | Some c => In c speeds end.
Definition high : list Z := [4;5;6;7;8;9;10;11;13;14;15;16;17;18;19;20;21;22;23;24;25;26;27;28;29;30;31].

Ltac each H := repeat destruct H as [H|H]; [subst .. |contradiction].

Lemma speed_high c i : In c speeds -> In i high -> Z.testbit c i = false.
Proof.
  intros Hc Hi. assert (A : forallb (fun i => forallb (fun c => negb (Z.testbit c i)) speeds) high = true) by reflexivity.
  rewrite forallb_forall in A. specialize (A i Hi). rewrite forallb_forall in A. specialize (A c Hc). destruct (Z.testbit c i); [discriminate A|reflexivity].
Qed.

Lemma cbaud_high i : In i high -> Z.testbit CBAUD i = false.
Proof.
  intros Hi. assert (A : forallb (fun i => negb (Z.testbit CBAUD i)) high = true) by reflexivity.
  rewrite forallb_forall in A. specialize (A i Hi). destruct (Z.testbit CBAUD i); [discriminate A|reflexivity].
Qed.

Lemma high_range i : In i high -> 0 <= i < 32.
Proof. intros H. cbn in H. lia. Qed.

Definition managed : list Z := [4; 5; 6; 7; 8; 9; 10; 11; 31].
Definition constants : list Z := [bor [CSIZE; PARENB; PARODD; CSTOPB; CLOCAL; HUPCL; CRTSCTS]; CREAD; CLOCAL; HUPCL; CRTSCTS; 0; 16; 32; 48; 256; 768; 64].

Lemma unmanaged i c : 0 <= i < 32 -> ~ In i managed -> In c constants -> Z.testbit c i = false.
Proof.
  intros Hi N Hc. apply bits32 in Hi.
  assert (A : forallb (fun i => existsb (Z.eqb i) managed || forallb (fun c => negb (Z.testbit c i)) constants)
    [0;1;2;3;4;5;6;7;8;9;10;11;12;13;14;15;16;17;18;19;20;21;22;23;24;25;26;27;28;29;30;31] = true) by (vm_compute; reflexivity).
  rewrite forallb_forall in A. specialize (A i Hi). apply orb_true_iff in A. destruct A as [A|A].
  - exfalso. apply N. apply existsb_exists in A. destruct A as (y & Y1 & Y2). apply Z.eqb_eq in Y2. subst y. exact Y1.
  - rewrite forallb_forall in A. specialize (A c Hc). destruct (Z.testbit c i); [discriminate A|reflexivity].
Qed.

Lemma not_managed_high i : 0 <= i < 32 -> ~ In i (managed ++ [0; 1; 2; 3; 12]) -> In i high.
Proof.
  intros Hi N. apply bits32 in Hi.
  assert (A : forallb (fun i => existsb (Z.eqb i) (managed ++ [0; 1; 2; 3; 12]) || existsb (Z.eqb i) high)
    [0;1;2;3;4;5;6;7;8;9;10;11;12;13;14;15;16;17;18;19;20;21;22;23;24;25;26;27;28;29;30;31] = true) by reflexivity.
  rewrite forallb_forall in A. specialize (A i Hi). apply orb_true_iff in A. destruct A as [A|A]; apply existsb_exists in A; destruct A as (y & Y1 & Y2); apply Z.eqb_eq in Y2; subst y; [contradiction|exact Y1].
Qed.

Lemma outside L C i c :
  forallb (fun i => existsb (Z.eqb i) L || forallb (fun c => negb (Z.testbit c i)) C)
    [0;1;2;3;4;5;6;7;8;9;10;11;12;13;14;15;16;17;18;19;20;21;22;23;24;25;26;27;28;29;30;31] = true ->
  0 <= i < 32 -> ~ In i L -> In c C -> Z.testbit c i = false.
Proof.
  intros A Hi N Hc. apply bits32 in Hi. rewrite forallb_forall in A. specialize (A i Hi). apply orb_true_iff in A. destruct A as [A|A].
  - exfalso. apply N. apply existsb_exists in A. destruct A as (y & Y1 & Y2). apply Z.eqb_eq in Y2. subst y. exact Y1.
  - rewrite forallb_forall in A. specialize (A c Hc). destruct (Z.testbit c i); [discriminate A|reflexivity].
Qed.

Definition imanaged : list Z := [0; 1; 3; 5; 6; 7; 8; 10; 12].
Lemma iunmanaged i c : 0 <= i < 32 -> ~ In i imanaged -> In c [bor [IGNBRK; BRKINT; PARMRK; ISTRIP; INLCR; IGNCR; ICRNL; IXON; IXOFF]; IXON; IXOFF; 0] ->
  Z.testbit c i = false.
Proof. apply outside. vm_compute. reflexivity. Qed.

Lemma in_sub (A B : list Z) x : forallb (fun a => existsb (Z.eqb a) B) A = true -> In x A -> In x B.
Proof. intros F H. rewrite forallb_forall in F. specialize (F x H). apply existsb_exists in F. destruct F as (y & Y1 & Y2). apply Z.eqb_eq in Y2. subst y. exact Y1. Qed.
Lemma in_data x : In x [0; 16; 32; 48] -> In x constants.
Proof. apply in_sub. reflexivity. Qed.
Lemma in_par x : In x [0; 256; 768] -> In x constants.
Proof. apply in_sub. reflexivity. Qed.
Lemma in_stop x : In x [0; 64] -> In x constants.
Proof. apply in_sub. reflexivity. Qed.
Lemma in_m (m : bool) : In (if m then 0 else CLOCAL) constants.
Proof. destruct m; cbn; tauto. Qed.
Lemma in_h (m : bool) : In (if m then HUPCL else 0) constants.
Proof. destruct m; cbn; tauto. Qed.
Lemma in_r (m : bool) : In (if m then CRTSCTS else 0) constants.
Proof. destruct m; cbn; tauto. Qed.
Lemma in_c : In CREAD constants.
Proof. cbn; tauto. Qed.

Section high_bits.
  Variables (t : termios) (speed : option Z) (data par stop : Z) (m x r : bool).
  Hypothesis HS : valid_speed speed.
  Hypothesis HD : In data [0; 16; 32; 48].
  Hypothesis HP : In par [0; 256; 768].
  Hypothesis HT : In stop [0; 64].
  Let t' := settings t speed data par stop m x r.

  Lemma cflag_high i : In i high ->
    Z.testbit (c_cflag t') i =
      (((((((Z.testbit (c_cflag t) i && negb (Z.testbit (bor [CSIZE; PARENB; PARODD; CSTOPB; CLOCAL; HUPCL; CRTSCTS]) i)) ||
       Z.testbit CREAD i) || Z.testbit data i) || Z.testbit par i) || Z.testbit stop i) || Z.testbit (if m then 0 else CLOCAL) i) ||
       Z.testbit (if m then HUPCL else 0) i) || Z.testbit (if r then CRTSCTS else 0) i.
  Proof.
    intros Hi. unfold t'. rewrite cflag_bit by (apply high_range, Hi). cbn zeta. destruct speed as [s|]; [|reflexivity].
    rewrite (speed_high s i HS Hi), (cbaud_high i Hi). rewrite orb_false_r, andb_true_r. reflexivity.
  Qed.

  (** Which bits of which word can be set. *)
  Lemma cflag_table i : In i [4; 5; 6; 7; 8; 9; 10; 11; 31] ->
    Z.testbit (c_cflag t') i =
      if i =? 7 then true else if (i =? 4) || (i =? 5) then Z.testbit data i else if i =? 6 then Z.testbit stop i
      else if (i =? 8) || (i =? 9) then Z.testbit par i else if i =? 10 then m else if i =? 11 then negb m else r.
  Proof.
    intros Hi. rewrite cflag_high by (cbn in *; tauto). generalize (Z.testbit (c_cflag t) i). intros b.
    cbn [In] in HD, HP, HT, Hi. destruct HD as [<-|[<-|[<-|[<-|[]]]]]; destruct HP as [<-|[<-|[<-|[]]]]; destruct HT as [<-|[<-|[]]];
      repeat (destruct Hi as [<-|Hi]; [destruct b, m, r; reflexivity|]); contradiction.
  Qed.

  Lemma cflag_same i : 0 <= i < 32 -> ~ In i ([4; 5; 6; 7; 8; 9; 10; 11; 31] ++ match speed with None => [] | Some _ => [0; 1; 2; 3; 12] end) ->
    Z.testbit (c_cflag t') i = Z.testbit (c_cflag t) i.
  Proof.
    intros Hi N. unfold t'. rewrite cflag_bit by exact Hi. cbn zeta.
    assert (NM : ~ In i managed) by (intros Q; apply N; apply in_or_app; left; exact Q).
    rewrite (unmanaged i (bor [CSIZE; PARENB; PARODD; CSTOPB; CLOCAL; HUPCL; CRTSCTS]) Hi NM) by (left; reflexivity).
    rewrite (unmanaged i CREAD Hi NM), (unmanaged i data Hi NM), (unmanaged i par Hi NM), (unmanaged i stop Hi NM),
      (unmanaged i (if m then 0 else CLOCAL) Hi NM), (unmanaged i (if m then HUPCL else 0) Hi NM), (unmanaged i (if r then CRTSCTS else 0) Hi NM)
      by (auto using in_data, in_par, in_stop, in_m, in_h, in_r, in_c).
    cbn [negb]. rewrite andb_true_r, !orb_false_r. destruct speed as [s|]; [|reflexivity].
    assert (H : In i high) by (apply not_managed_high; assumption). rewrite (speed_high s i HS H), (cbaud_high i H), orb_false_r, andb_true_r. reflexivity.
  Qed.

  Lemma iflag_table i : In i [0; 1; 3; 5; 6; 7; 8; 10; 12] -> Z.testbit (c_iflag t') i = if (i =? 10) || (i =? 12) then x else false.
  Proof.
    intros Hi. unfold t'. rewrite iflag_bit by (cbn in Hi; lia). cbn zeta. generalize (Z.testbit (c_iflag t) i). intros b.
    cbn [In] in Hi. destruct speed as [s|]; [destruct (s =? 0)|];
      repeat (destruct Hi as [<-|Hi]; [destruct b, x; reflexivity|]); contradiction.
  Qed.

  Lemma iflag_same i : 0 <= i < 32 -> ~ In i ([0; 1; 3; 5; 6; 7; 8; 10; 12] ++ match speed with None => [] | Some _ => [31] end) ->
    Z.testbit (c_iflag t') i = Z.testbit (c_iflag t) i.
  Proof.
    intros Hi N. unfold t'. rewrite iflag_bit by exact Hi. cbn zeta.
    assert (NM : ~ In i imanaged) by (intros Q; apply N; apply in_or_app; left; exact Q).
    rewrite (iunmanaged i (bor [IGNBRK; BRKINT; PARMRK; ISTRIP; INLCR; IGNCR; ICRNL; IXON; IXOFF]) Hi NM) by (left; reflexivity).
    rewrite (iunmanaged i (if x then IXON else 0) Hi NM), (iunmanaged i (if x then IXOFF else 0) Hi NM) by (destruct x; cbn; auto).
    cbn [negb]. rewrite andb_true_r, !orb_false_r. destruct speed as [s|]; [|reflexivity].
    assert (B : Z.testbit IBAUD0 i = false).
    { apply (outside [31] [IBAUD0]); [reflexivity|exact Hi| |left; reflexivity]. intros Q. apply N, in_or_app. right. exact Q. }
    rewrite B. cbn [negb]. rewrite andb_true_r, orb_false_r. destruct (s =? 0); reflexivity.
  Qed.

  Lemma oflag_same i : 0 <= i < 32 -> Z.testbit (c_oflag t') i = if i =? 0 then false else Z.testbit (c_oflag t) i.
  Proof.
    intros Hi. unfold t'. rewrite oflag_bit by exact Hi. generalize (Z.testbit (c_oflag t) i). intros b. apply bits32 in Hi. cbn [In] in Hi.
    repeat (destruct Hi as [<-|Hi]; [destruct b; reflexivity|]). contradiction.
  Qed.

  Lemma lflag_same i : 0 <= i < 32 ->
    Z.testbit (c_lflag t') i = if (i =? 0) || (i =? 1) || (i =? 3) || (i =? 6) || (i =? 15) then false else Z.testbit (c_lflag t) i.
  Proof.
    intros Hi. unfold t'. rewrite lflag_bit by exact Hi. generalize (Z.testbit (c_lflag t) i). intros b. apply bits32 in Hi. cbn [In] in Hi.
    repeat (destruct Hi as [<-|Hi]; [destruct b; reflexivity|]). contradiction.
  Qed.

  (** The speed: the low bits and bit 12. *)
  Lemma code_same : speed_code t' = match speed with None => speed_code t | Some s => s end.
  Proof.
    unfold speed_code. apply Z.bits_inj'. intros i Hi. destruct (Z.le_gt_cases 32 i) as [G|G].
    - assert (L : Z.testbit 4111 i = false) by (apply Z.bits_above_log2; [lia|change (Z.log2 4111) with 12; lia]).
      destruct speed as [s|]; rewrite ?Z.land_spec, ?L, ?andb_false_r; [|reflexivity]. symmetry. cbn in HS.
      assert (R : 0 <= s < 2 ^ 13) by lia.
      destruct (Z.eq_dec s 0) as [->|]; [apply Z.bits_0|]. apply Z.bits_above_log2; [lia|]. assert (Z.log2 s < 13) by (apply Z.log2_lt_pow2; lia). lia.
    - rewrite Z.land_spec. unfold t'. rewrite cflag_bit by lia. cbn zeta. assert (Hb : 0 <= i < 32) by lia. apply bits32 in Hb.
      destruct speed as [s|].
      + destruct (in_dec Z.eq_dec i high) as [H|H].
        * rewrite (speed_high s i HS H). change 4111 with CBAUD. rewrite (cbaud_high i H). apply andb_false_r.
        * assert (C : Z.testbit CBAUD i = true).
          { cbn [In] in Hb. repeat (destruct Hb as [<-|Hb]; [first [reflexivity|exfalso; apply H; cbn; tauto]|]). contradiction. }
          rewrite C. change 4111 with CBAUD. rewrite C. cbn [negb]. rewrite andb_false_r, andb_true_r. reflexivity.
      + rewrite Z.land_spec. destruct (in_dec Z.eq_dec i managed) as [H|H].
        * assert (C : Z.testbit 4111 i = false) by (cbn [In managed] in H; repeat (destruct H as [<-|H]; [reflexivity|]); contradiction).
          rewrite C, !andb_false_r. reflexivity.
        * assert (Hi' : 0 <= i < 32) by lia.
          rewrite (unmanaged i (bor [CSIZE; PARENB; PARODD; CSTOPB; CLOCAL; HUPCL; CRTSCTS]) Hi' H) by (left; reflexivity).
          rewrite (unmanaged i CREAD Hi' H), (unmanaged i data Hi' H), (unmanaged i par Hi' H), (unmanaged i stop Hi' H),
            (unmanaged i (if m then 0 else CLOCAL) Hi' H), (unmanaged i (if m then HUPCL else 0) Hi' H), (unmanaged i (if r then CRTSCTS else 0) Hi' H)
            by (auto using in_data, in_par, in_stop, in_m, in_h, in_r, in_c).
          cbn [negb]. rewrite andb_true_r, !orb_false_r. reflexivity.
  Qed.

  Lemma speed_same : c_ispeed t' = match speed with None => c_ispeed t | Some s => s end /\
    c_ospeed t' = match speed with None => c_ospeed t | Some s => s end /\ vtime t' = 0 /\ vmin t' = 1.
  Proof. unfold t', settings. destruct speed; auto. Qed.
End high_bits.
