(** Proofs about reading and writing memory behind a driver. *)

From Coq Require Import ZArith List Bool Lia.
From Verif Require Import CUtil CInt NumberModel DecModel NumberSpec MemtoolModel MemtoolSpec MemtoolProofs MmtoolModel MmtoolSpec.
From Verif Require DriverModel DriverSpec DecProofs.
Import ListNotations.
Local Open Scope Z_scope.

Lemma octet_bit v k i : 0 <= i < 8 -> Z.testbit (octet v k) i = Z.testbit v (8 * Z.of_nat k + i).
Proof.
  intros I. unfold octet. change 256 with (2 ^ 8). rewrite Z.mod_pow2_bits_low by lia. rewrite Z.div_pow2_bits by lia. f_equal. lia.
Qed.
Lemma octet_range v k : 0 <= octet v k < 256.
Proof. apply Z.mod_pos_bound. reflexivity. Qed.
Lemma assign_low w v d k : (k < Z.to_nat w)%nat -> nth k (assign w v d) 0 = octet v k.
Proof.
  intros K. unfold assign. rewrite app_nth1 by (rewrite map_length, seq_length; exact K).
  rewrite (nth_indep _ 0 (octet v 0)) by (rewrite map_length, seq_length; exact K). rewrite map_nth, seq_nth by exact K. reflexivity.
Qed.
Lemma nth_skip n : forall (d : list Z) k, nth k (skipn n d) 0 = nth (n + k) d 0.
Proof. induction n as [|n IH]; intros [|x d] k; cbn; try reflexivity; [destruct k; reflexivity|apply IH]. Qed.
Lemma assign_high w v d k : (Z.to_nat w <= k)%nat -> nth k (assign w v d) 0 = nth k d 0.
Proof.
  intros K. unfold assign. rewrite app_nth2 by (rewrite map_length, seq_length; exact K). rewrite map_length, seq_length, nth_skip. f_equal. lia.
Qed.
Lemma assign_octets w v d : eight_octets d -> eight_octets (assign w v d).
Proof.
  intros O k K. destruct (Nat.lt_ge_cases k (Z.to_nat w)) as [L|L]; [rewrite assign_low by exact L; apply octet_range|rewrite assign_high by exact L; apply O, K].
Qed.
Lemma bits8 x y : 0 <= x < 256 -> 0 <= y < 256 -> (forall i, 0 <= i < 8 -> Z.testbit x i = Z.testbit y i) -> x = y.
Proof. intros X Y. apply (bits_eq 8); [lia|exact X|exact Y]. Qed.

(** The change, as it is sent. *)
Definition raw (k : change) : Z := match k with SetOne n | ClearOne n => Z.shiftl 1 n | ToValue v | SetOnes v | ClearOnes v => v end.
Definition command_of (k : change) : DriverModel.command := match k with ToValue _ => DriverModel.WRITE | SetOnes _ | SetOne _ => DriverModel.SET | _ => DriverModel.CLEAR end.
Definition given (k : change) (s : tool) : tool := match k with SetOnes _ | SetOne _ => give_masked s (raw k) | _ => give s (raw k) end.
Lemma argument_ok t s v k : spelled t v -> argument t s k = k v.
Proof. intros H. unfold argument. rewrite (proj1 (spelled_ok t v H)). reflexivity. Qed.
Lemma argument_bad t s k : misspelled t -> argument t s k = Some (s, true, false).
Proof. intros H. destruct (misspelled_ok t H) as (v & c & r & E). unfold argument. rewrite E. reflexivity. Qed.
Lemma asks_option opens driver w f k s : In w [1; 2; 4; 8] -> asks w f k -> option_ opens driver f s = sent (control opens driver (command_of k) (given k s)).
Proof.
  intros W. assert (W8 : w <= 8) by (cbn in W; lia).
  destruct f, k; cbn [asks]; intros H; try contradiction; cbn [option_ command_of given raw]; try (rewrite (argument_ok _ s _ _ H); reflexivity);
    destruct H as (H & L); rewrite (argument_ok _ s _ _ H); unfold shifted; match goal with |- context [?n >? 63] => destruct (Z.gtb_spec n 63) as [G|G] end; lia || reflexivity.
Qed.
Lemma raw_bit w f k j old u : asks w f k -> 0 <= j ->
  new_bit k u old j = match command_of k with DriverModel.WRITE => Z.testbit (raw k) j
    | DriverModel.SET => Z.testbit old j && negb (Z.testbit u j) || Z.testbit (raw k) j
    | _ => Z.testbit old j && negb (Z.testbit (raw k) j) end.
Proof.
  intros A J. assert (S : forall n, 0 <= n -> Z.testbit (Z.shiftl 1 n) j = (j =? n)).
  { intros n N. rewrite Z.shiftl_1_l. rewrite Z.pow2_bits_eqb by exact N. apply Z.eqb_sym. }
  pose proof (asks_range w f k A) as R. destruct k; cbn [new_bit command_of raw val_of] in *; try rewrite S by lia;
    repeat match goal with |- context [Z.testbit ?x ?y] => destruct (Z.testbit x y) end; repeat match goal with |- context [?x =? ?y] => destruct (x =? y) end; reflexivity.
Qed.

(** The states. *)
Record stands (c : setting) (r : option Z) (m : Z -> Z) (s : tool) : Prop := {
  t_place : DriverModel.offset (op_ s) = place c;
  t_width : DriverModel.width (op_ s) = width c;
  t_valid : In (width c) [1; 2; 4; 8];
  t_mask : mask_ s = under c;
  t_mem : alike (memory_ s) m;
  t_octets : octet_memory (memory_ s);
  t_value : eight_octets (DriverModel.value (op_ s));
  t_masks : eight_octets (DriverModel.mask (op_ s));
  t_read : forall n, r = Some n -> current s = n }.
Lemma word_alike m m' a w n : alike m m' -> word m a w n -> word m' a w n.
Proof. intros A (R & K). split; [exact R|]. intros k Hk. rewrite <- A. apply K, Hk. Qed.

Section Run.
Variables (base length : Z) (opens busy : bool) (driver : (Z -> Z) -> DriverModel.call -> Z * DriverModel.op * (Z -> Z)).
Hypothesis H : honest base length busy driver.

(** A call that fails leaves everything as it was. *)
Lemma control_fails c r m s cmd s' : stands c r m s -> control opens driver cmd s = (s', true) -> In cmd [DriverModel.READ; DriverModel.WRITE; DriverModel.SET; DriverModel.CLEAR] ->
  (opens = false \/ busy = true \/ ~ reachable base length c) /\ alike (memory_ s') m /\ printed s' = printed s.
Proof.
  intros [] E C. unfold control in E. destruct opens; cbn [negb] in E; [|injection E as <-; auto].
  pose proof (H (memory_ s) (DriverModel.mkcall cmd (op_ s) true true)) as D. destruct (driver _ _) as ((rc & o) & m1). injection E as <- L. apply Z.ltb_lt in L.
  destruct D as ([(-> & _)|(_ & W & -> & _)] & B & _); [lia|]. cbn. split; [|auto]. right. destruct busy; [auto|]. right.
  destruct W as [->|W]; [destruct (B eq_refl eq_refl)|]. intros (P & Wi & A). apply W. unfold DriverSpec.works, DriverSpec.possible. cbn [DriverModel.arg DriverModel.cmd DriverModel.readable DriverModel.writable].
  rewrite t_place0, t_width0. auto.
Qed.
Lemma control_works c r m s cmd s' : stands c r m s -> control opens driver cmd s = (s', false) ->
  opens = true /\ reachable base length c /\ printed s' = printed s /\ mask_ s' = under c /\ octet_memory (memory_ s') /\
  DriverSpec.becomes base (DriverModel.mkcall cmd (op_ s) true true) (memory_ s) (memory_ s') /\
  DriverSpec.gives base (DriverModel.mkcall cmd (op_ s) true true) (memory_ s) (op_ s').
Proof.
  intros [] E. unfold control in E. destruct opens; cbn [negb] in E; [|discriminate].
  pose proof (H (memory_ s) (DriverModel.mkcall cmd (op_ s) true true)) as D. destruct (driver _ _) as ((rc & o) & m1). injection E as <- L. apply Z.ltb_ge in L.
  destruct D as ([(-> & W & B & G)|(N & _)] & _ & O); [|lia]. cbn [op_ mask_ memory_ printed].
  split; [reflexivity|]. split; [|split; [reflexivity|split; [exact t_mask0|split; [apply O; assumption|split; [exact B|exact G]]]]].
  destruct W as ((P & _ & A) & _). cbn [DriverModel.arg] in P, A. rewrite t_place0 in P. rewrite t_place0, t_width0 in A. split; [exact P|]. split; [exact t_valid0|exact A].
Qed.

(** Reading. *)
Lemma read_works c r m s s' : stands c r m s -> control opens driver DriverModel.READ s = (s', false) ->
  exists n, opens = true /\ reachable base length c /\ word m (base + place c) (width c) n /\ printed s' = printed s /\ stands c (Some n) m s'.
Proof.
  intros St E. destruct (control_works _ _ _ _ _ _ St E) as (Op & R & Pr & M & O & B & (G1 & G2 & G3 & G4)). destruct St.
  cbn [DriverModel.arg] in *. assert (W8 : 1 <= width c <= 8) by (cbn in t_valid0; lia).
  assert (MM : alike (memory_ s') (memory_ s)).
  { intros a. destruct (B a) as (B1 & B2). unfold DriverSpec.within in *. cbn [DriverModel.arg DriverModel.cmd] in *.
    rewrite t_place0, t_width0 in *. destruct (Z_le_gt_dec (base + place c) a), (Z_lt_ge_dec a (base + place c + width c)); [apply B1; lia|apply B2; lia|apply B2; lia|apply B2; lia]. }
  pose proof (load_word (Z.to_nat (width c)) (memory_ s) (base + place c) t_octets0) as Wd. rewrite Z2Nat.id in Wd by lia.
  set (n := load (Z.to_nat (width c)) (memory_ s) (base + place c)) in *.
  exists n. assert (C : current s' = n).
  { unfold current, field. rewrite G2, t_width0. apply word_load. rewrite Z2Nat.id by lia. destruct Wd as (Rn & Wk). split; [exact Rn|]. intros k K.
    rewrite Z.add_0_l. rewrite G4 by lia. rewrite Z2Nat.id by lia. rewrite t_width0, t_place0. destruct (Z.ltb_spec k (width c)); [|lia]. apply Wk, K. }
  split; [exact Op|]. split; [exact R|]. split; [exact (word_alike _ _ _ _ _ t_mem0 Wd)|]. split; [exact Pr|].
  split; [congruence|congruence|exact t_valid0|exact M|intros a; rewrite (MM a); apply t_mem0|exact O| |rewrite G3; exact t_masks0|intros k [= <-]; exact C].
  intros k K. rewrite G4 by exact K. destruct (_ <? _); [apply t_octets0|apply t_value0, K].
Qed.

(** Changing. *)
Lemma given_stands c r m s f k : stands c r m s -> asks (width c) f k -> stands c None m (given k s).
Proof.
  intros [] _. assert (forall n, None = Some n -> current (given k s) = n) by discriminate.
  destruct k; split; cbn; auto using assign_octets.
Qed.
Lemma change_works c r m s f k s' : stands c r m s -> asks (width c) f k -> control opens driver (command_of k) (given k s) = (s', false) ->
  exists old n m1, opens = true /\ reachable base length c /\ word m (base + place c) (width c) old /\
    (forall i, 0 <= i < 8 * width c -> Z.testbit n i = new_bit k (under c) old i) /\ becomes m (base + place c) (width c) n m1 /\
    printed s' = printed s /\ stands c None m1 s'.
Proof.
  intros St A E. pose proof (given_stands c r m s f k St A) as Sg.
  destruct (control_works _ _ _ _ _ _ Sg E) as (Op & R & Pr & M & O & B & G).
  assert (W8 : 1 <= width c <= 8) by (destruct St; cbn in t_valid0; lia).
  assert (G' : op_ s' = op_ (given k s)) by (destruct k; exact G). clear G.
  assert (MS : memory_ (given k s) = memory_ s) by (destruct k; reflexivity).
  assert (PS : printed (given k s) = printed s) by (destruct k; reflexivity). rewrite MS in B. rewrite PS in Pr.
  destruct St. destruct Sg as [g1 g2 _ g4 _ _ g7 g8 _].
  pose proof (load_word (Z.to_nat (width c)) (memory_ s) (base + place c) t_octets0) as Wd. rewrite Z2Nat.id in Wd by lia.
  set (old := load (Z.to_nat (width c)) (memory_ s) (base + place c)) in *.
  destruct (bits_exist (new_bit k (under c) old) (Z.to_nat (8 * width c))) as (n & Rn & Bn). rewrite Z2Nat.id in Rn, Bn by lia.
  exists old, n, (memory_ s'). split; [exact Op|]. split; [exact R|]. split; [exact (word_alike _ _ _ _ _ t_mem0 Wd)|]. split; [exact Bn|].
  assert (V : forall j, (j < Z.to_nat (width c))%nat -> nth j (DriverModel.value (op_ (given k s))) 0 = octet (raw k) j).
  { intros j J. destruct k; cbn; rewrite t_width0; apply assign_low, J. }
  assert (U : command_of k = DriverModel.SET -> forall j, (j < Z.to_nat (width c))%nat -> nth j (DriverModel.mask (op_ (given k s))) 0 = octet (under c) j).
  { intros X j J. destruct k; try discriminate X; cbn; rewrite t_width0, t_mask0; apply assign_low, J. }
  split; [|split; [exact Pr|split; try assumption; try (rewrite G'; assumption); try (intros a; reflexivity); try discriminate]].
  assert (BB := B). split.
  - split; [exact Rn|]. intros j J. destruct (B (base + place c + j)) as (B1 & _). unfold DriverSpec.within in B1. cbn [DriverModel.arg DriverModel.cmd] in B1. rewrite g1, g2 in B1. specialize (B1 ltac:(lia)).
    unfold DriverSpec.octet_at in B1. rewrite g1 in B1. replace (base + place c + j - (base + place c)) with j in B1 by lia.
    rewrite (V (Z.to_nat j)) in B1 by lia.
    assert (F : (n / 2 ^ (8 * j)) mod 256 = octet n (Z.to_nat j)) by (unfold octet; rewrite Z2Nat.id by lia; reflexivity). rewrite F.
    apply bits8; [apply O|apply octet_range|]. intros i I. rewrite octet_bit by exact I. rewrite Bn by lia. rewrite (raw_bit (width c) f k _ _ _ A) by lia.
    assert (OB : Z.testbit (memory_ s (base + place c + j)) i = Z.testbit old (8 * Z.of_nat (Z.to_nat j) + i)).
    { destruct Wd as (_ & Wk). rewrite (Wk j J). rewrite <- (octet_bit old (Z.to_nat j) i I). unfold octet. rewrite Z2Nat.id by lia. reflexivity. }
    destruct (command_of k) eqn:CK; try (destruct k; discriminate CK).
    + rewrite B1. apply octet_bit, I.
    + rewrite (U eq_refl (Z.to_nat j)) in B1 by lia. rewrite B1 by exact I. rewrite !octet_bit by exact I. rewrite OB. reflexivity.
    + rewrite B1 by exact I. rewrite !octet_bit by exact I. rewrite OB. reflexivity.
  - intros b N. rewrite <- (t_mem0 b). apply (proj2 (B b)). unfold DriverSpec.within. cbn [DriverModel.arg]. rewrite g1, g2. exact N.
Qed.

(** All of it. *)
Lemma plan_run w q l : plan w q l -> forall c r m s, width c = w -> (q = true -> r <> None) -> stands c r m s ->
  exists s' m' o x, options_ opens driver l s = Some (s', x) /\ alike (memory_ s') m' /\ printed s' = printed s ++ o /\ session base length opens busy c r m l m' o x.
Proof.
  induction 1 as [w q|w q w' t v l W Sp P IH|w q t v l Sp P IH|w q l P IH|w q f k l As P IH|w f l F P IH|w q f l F P IH|w q t v l Sp P IH|w q f t l Mi F]; intros c r m s Wc Q St; cbn [options_].
  - exists s, m, [], 0. rewrite app_nil_r. repeat split; [apply (t_mem _ _ _ _ St)|constructor].
  - cbn [option_]. rewrite (argument_ok t s v _ Sp). cbn [bind].
    destruct (IH (Setting w' v (under c)) None m (with_op (DriverModel.mkop v w' (DriverModel.value (op_ s)) (DriverModel.mask (op_ s))) s)) as (s' & m' & o & x & E & A & Pr & S); [reflexivity|discriminate|destruct St; split; cbn; auto; discriminate|].
    exists s', m', o, x. split; [exact E|]. split; [exact A|]. split; [exact Pr|]. eapply session_width; eassumption.
  - cbn [option_]. rewrite (argument_ok t s v _ Sp). cbn [bind].
    destruct (IH (Setting (width c) (place c) v) r m (with_mask v s)) as (s' & m' & o & x & E & A & Pr & S); [exact Wc|exact Q|destruct St; split; cbn; auto|].
    exists s', m', o, x. split; [exact E|]. split; [exact A|]. split; [exact Pr|]. eapply session_mask; eassumption.
  - cbn [option_]. destruct (control opens driver DriverModel.READ s) as (s1 & e) eqn:E1. destruct e; cbn [bind].
    + destruct (control_fails _ _ _ _ _ _ St E1) as (Fa & A & Pr); [left; reflexivity|]. exists s1, m, [], 1. rewrite app_nil_r. split; [reflexivity|]. split; [exact A|]. split; [exact Pr|]. apply session_failure; [exact Fa|left; reflexivity].
    + destruct (read_works _ _ _ _ _ St E1) as (n & Op & R & Wd & Pr & S1).
      destruct (IH c (Some n) m (Tool (op_ s1) (mask_ s1) (memory_ s1) (printed s1 ++ number 10 (current s1) ++ [10]))) as (s' & m' & o & x & E & A & Pr' & S); [exact Wc|discriminate|destruct S1; split; cbn; auto|].
      exists s', m', (dec n ++ [10] ++ o), x. split; [exact E|]. split; [exact A|]. split.
      * rewrite Pr'. cbn [printed]. rewrite Pr, (t_read _ _ _ _ S1 n eq_refl). rewrite DecProofs.number_dec; [rewrite !app_assoc; reflexivity|].
        destruct Wd as (Rn & _). assert (2 ^ (8 * width c) <= 2 ^ 64); [|lia]. apply Z.pow_le_mono_r; [lia|]. destruct R as (_ & Wi & _). cbn in Wi. lia.
      * apply session_read; assumption.
  - subst w. rewrite (asks_option opens driver (width c) f k s (t_valid _ _ _ _ St) As).
    destruct (control opens driver (command_of k) (given k s)) as (s1 & e) eqn:E1. cbn [sent fst snd bind]. destruct e.
    + destruct (control_fails _ _ _ _ _ _ (given_stands _ _ _ _ _ _ St As) E1) as (Fa & A & Pr); [destruct k; cbn; tauto|]. exists s1, m, [], 1. rewrite app_nil_r.
      split; [reflexivity|]. split; [exact A|]. split; [rewrite Pr; destruct k; reflexivity|]. apply session_failure; [exact Fa|right; exists k; exact As].
    + destruct (change_works _ _ _ _ _ _ _ St As E1) as (old & n & m1 & Op & R & Wd & Bi & Be & Pr & S1).
      destruct (IH c None m1 s1) as (s' & m' & o & x & E & A & Pr' & S); [reflexivity|discriminate|exact S1|].
      exists s', m', o, x. split; [exact E|]. split; [exact A|]. split; [rewrite Pr', Pr; reflexivity|]. eapply session_change; eassumption.
  - destruct r as [n|]; [|destruct (Q eq_refl eq_refl)]. pose proof (t_read _ _ _ _ St n eq_refl) as Cn.
    destruct F as [<-|[<-|[]]]; cbn [option_ bind]; rewrite Cn; destruct (Z.eqb_spec n 0) as [->|N]; cbn [negb].
    + exists s, m, [], 0. rewrite app_nil_r. repeat split; [apply (t_mem _ _ _ _ St)|apply session_true_not].
    + destruct (IH c (Some n) m s Wc Q St) as (s' & m' & o & x & E & A & Pr & S). exists s', m', o, x. split; [exact E|]. split; [exact A|]. split; [exact Pr|]. apply session_true; assumption.
    + destruct (IH c (Some 0) m s Wc Q St) as (s' & m' & o & x & E & A & Pr & S). exists s', m', o, x. split; [exact E|]. split; [exact A|]. split; [exact Pr|]. apply session_false; assumption.
    + exists s, m, [], 0. rewrite app_nil_r. repeat split; [apply (t_mem _ _ _ _ St)|apply session_false_not; exact N].
  - destruct (IH c r m s Wc Q St) as (s' & m' & o & x & E & A & Pr & S). exists s', m', o, x.
    split; [destruct F as [<-|[<-|[]]]; exact E|]. split; [exact A|]. split; [exact Pr|]. apply session_nothing; assumption.
  - cbn [option_]. rewrite (argument_ok t s v _ Sp). cbn [bind]. destruct (IH c r m s Wc Q St) as (s' & m' & o & x & E & A & Pr & S). exists s', m', o, x.
    split; [exact E|]. split; [exact A|]. split; [exact Pr|]. eapply session_sleep; eassumption.
  - exists s, m, [], 1. rewrite app_nil_r. split.
    + cbn [In] in F. repeat (destruct F as [<-|F]; [cbn [option_]; rewrite (argument_bad t s _ Mi); reflexivity|]). destruct F.
    + repeat split; [apply (t_mem _ _ _ _ St)|]. eapply session_misspelled; eassumption.
Qed.
End Run.
