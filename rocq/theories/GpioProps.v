(** Property C100. *)

From Coq Require Import ZArith List Bool Lia String.
From Verif Require Import CInt CUtil NumberModel NumberSpec NumberProofs NumberProps PinModel PinSpec PinProofs PinProps GpioModel GpioSpec GpioProofs.
Import ListNotations.
Local Open Scope Z_scope.

(** With one argument, any numeral of a pin: the exit status is zero if and only if the pin
    could be exported, made an input, opened and read, and what was there is a zero or a one;
    then just that is printed on a line; otherwise nothing is. If the pin could be prepared,
    it was read, and it is unexported and closed again, if the kernel lets it. *)
Theorem C100_read : forall w delay tries root junk a pin, numeral a pin -> 0 <= pin < 2 ^ 31 -> (List.length root <= 4000)%nat ->
  let o := main w delay tries root junk [a] in
  (exit o = 0 \/ exit o = 1) /\
  (exit o = 0 <-> ready w tries /\ w_lseek w = true /\ 0 < w_size w /\ ([w_first w] = text "0" \/ [w_first w] = text "1")) /\
  (exit o = 0 -> output o = [w_first w] ++ newline) /\ (exit o <> 0 -> output o = []) /\
  (ready w tries -> exists t t', prepared root pin "in" 114 t /\ calls o = t ++ (if w_lseek w then [Lseek; Read 2] else [Lseek]) ++ t' /\
     (releases w -> w_fclose w = true -> released root pin t')).
Proof.
  intros w delay tries root junk a pin N P L. cbn zeta. unfold main. rewrite (read_number a pin N) by (split; [apply P|eapply Z.lt_trans; [apply P|reflexivity]]).
  unfold input. rewrite (s32_id pin P). destruct (setup _ _ _ _ _ _ _ _ _) as (fp, t) eqn:E. destruct (setup_ok _ _ _ _ _ _ _ _ P L E) as (F & T).
  destruct fp; cbn [negb].
  - pose proof (proj1 F eq_refl) as R. specialize (T eq_refl). cbn in T. pose proof (C78_get (w_lseek w) (w_size w) (w_first w)) as G. cbn zeta in G.
    assert (T2 : snd (pin_get (w_lseek w) (w_size w) (w_first w)) = if w_lseek w then [Lseek; Read 2] else [Lseek]) by (unfold pin_get; destruct (w_lseek w); reflexivity).
    destruct (pin_get _ _ _) as (state, t2). cbn [fst snd] in G, T2. subst t2. destruct G as (G0 & G1 & GA).
    destruct (Z.ltb_spec state 0) as [S|S].
    + destruct (leave_ok w delay root pin 1 (t ++ (if w_lseek w then [Lseek; Read 2] else [Lseek])) [] P L) as (X1 & X2 & t' & X3 & X4 & _). rewrite X1, X2, X3.
      split; [right; reflexivity|]. split; [split; [discriminate|]|].
      { intros (_ & Q1 & Q2 & [Q3|Q3]); exfalso; [assert (state = 0) by (apply G0; auto)|assert (state = 1) by (apply G1; auto)]; lia. }
      split; [discriminate|]. split; [reflexivity|]. intros _. exists t, t'. rewrite <- app_assoc. auto.
    + destruct (leave_ok w delay root pin 0 (t ++ (if w_lseek w then [Lseek; Read 2] else [Lseek])) ((if negb (state =? 0) then [49] else [48]) ++ [10]) P L) as (X1 & X2 & t' & X3 & X4 & _). rewrite X1, X2, X3.
      assert (Q : w_lseek w = true /\ 0 < w_size w /\ [w_first w] = if state =? 0 then [48] else [49]).
      { destruct GA as [Q|[Q|Q]]; [| |lia]; subst state; [apply G0|apply G1]; reflexivity. }
      split; [left; reflexivity|]. split; [split; [intros _|reflexivity]|].
      { split; [exact R|]. split; [apply Q|]. split; [apply Q|]. destruct Q as (_ & _ & ->). destruct (state =? 0); auto. }
      split; [intros _; destruct Q as (_ & _ & ->); destruct (state =? 0); reflexivity|]. split; [congruence|]. intros _. exists t, t'. rewrite <- app_assoc. auto.
  - assert (NR : ~ ready w tries) by (intros Q; apply F in Q; discriminate). cbn [leave exit output].
    split; [right; reflexivity|]. split; [split; [discriminate|tauto]|]. split; [discriminate|]. split; [reflexivity|]. tauto.
Qed.
Print Assumptions C100_read.

(** With two, of which the second is a number: it is the same with an output, to which a one
    is written unless the number is zero. Nothing is printed. *)
Theorem C100_write : forall w delay tries root junk a pin b value, numeral a pin -> 0 <= pin < 2 ^ 31 -> numeral b value -> 0 <= value < 2 ^ 64 -> (List.length root <= 4000)%nat ->
  let o := main w delay tries root junk [a; b] in
  (exit o = 0 \/ exit o = 1) /\
  (exit o = 0 <-> ready w tries /\ w_lseek w = true /\ 0 <= w_size w) /\
  output o = [] /\
  (ready w tries -> exists t t', prepared root pin "out" 119 t /\
     calls o = t ++ (if w_lseek w then [Lseek; Write (text (if value =? 0 then "0" else "1") ++ newline)] else [Lseek]) ++ t' /\
     (releases w -> w_fclose w = true -> released root pin t')).
Proof.
  intros w delay tries root junk a pin b value N P N2 P2 L. cbn zeta. unfold main. rewrite (read_number a pin N) by (split; [apply P|eapply Z.lt_trans; [apply P|reflexivity]]).
  rewrite (read_number b value N2 P2). unfold give. rewrite (s32_id pin P). destruct (setup _ _ _ _ _ _ _ _ _) as (fp, t) eqn:E. destruct (setup_ok _ _ _ _ _ _ _ _ P L E) as (F & T).
  destruct fp; cbn [negb].
  - pose proof (proj1 F eq_refl) as R. specialize (T eq_refl). cbn in T. pose proof (C78_put (w_lseek w) (w_size w) (if negb (value =? 0) then 1 else 0)) as G.
    destruct (pin_put _ _ _) as (rc, t2). destruct G as (G0 & GA & G2).
    assert (E2 : t2 = if w_lseek w then [Lseek; Write (text (if value =? 0 then "0" else "1") ++ newline)] else [Lseek]).
    { rewrite G2. destruct (w_lseek w); [|reflexivity]. destruct (value =? 0); reflexivity. }
    rewrite E2. clear E2 G2 t2.
    assert (E3 : exists k, (if rc <? 0 then leave w delay root true pin 1 (t ++ (if w_lseek w then [Lseek; Write (text (if value =? 0 then "0" else "1") ++ newline)] else [Lseek])) []
      else leave w delay root true pin 0 (t ++ (if w_lseek w then [Lseek; Write (text (if value =? 0 then "0" else "1") ++ newline)] else [Lseek])) []) =
      leave w delay root true pin k (t ++ (if w_lseek w then [Lseek; Write (text (if value =? 0 then "0" else "1") ++ newline)] else [Lseek])) [] /\ ((k = 0 /\ rc = 0) \/ (k = 1 /\ rc = -1))).
    { destruct (Z.ltb_spec rc 0); eexists; (split; [reflexivity|]); lia. }
    destruct E3 as (k & -> & K). destruct (leave_ok w delay root pin k (t ++ (if w_lseek w then [Lseek; Write (text (if value =? 0 then "0" else "1") ++ newline)] else [Lseek])) [] P L) as (X1 & X2 & t' & X3 & X4 & _).
    rewrite X1, X2, X3. split; [lia|]. split; [split|].
    + intros Z0. split; [exact R|]. apply G0. lia.
    + intros (_ & Q). apply G0 in Q. lia.
    + split; [reflexivity|]. intros _. exists t, t'. rewrite <- app_assoc. auto.
  - assert (NR : ~ ready w tries) by (intros Q; apply F in Q; discriminate). cbn [leave exit output].
    split; [right; reflexivity|]. split; [split; [discriminate|tauto]|]. split; [reflexivity|]. tauto.
Qed.
Print Assumptions C100_write.

(** Without arguments, with arguments of which one of the first two is not a numeral, or with
    more than two: nothing is done, and the exit status says so. *)
Theorem C100_usage : forall w delay tries root junk args,
  args = [] \/ (exists a, In a (firstn 2 args) /\ a <> [] /\ forall n, ~ numeral a n) \/ (2 < List.length args)%nat ->
  main w delay tries root junk args = Outcome 1 [] [].
Proof.
  intros w delay tries root junk args H.
  assert (Bad : forall a, a <> [] -> (forall n, ~ numeral a n) -> exists c r, snd (number_unsigned a) = c :: r).
  { intros a N1 N2. destruct (C60_only a) as [(_ & E)|(x & rest & n & -> & _ & Nu & _ & E & _)].
    - rewrite E. cbn [snd]. destruct a as [|c r]; [congruence|]. exists c, r. reflexivity.
    - rewrite E. destruct rest as [|c r]; [|exists c, r; reflexivity]. rewrite app_nil_r in N2. destruct (N2 n Nu). }
  destruct args as [|a more]; [reflexivity|]. unfold main. destruct (number_unsigned a) as (pin, rest) eqn:Ea.
  destruct rest; [|reflexivity]. destruct H as [H|[(x & Hx & N1 & N2)|H]]; [discriminate| |].
  - destruct (Bad x N1 N2) as (c & r & E). destruct more as [|b more].
    + destruct Hx as [<- | []]. rewrite Ea in E. discriminate E.
    + destruct Hx as [<-|[<- | []]]; [rewrite Ea in E; discriminate E|]. destruct (number_unsigned b) as (v, s). cbn [snd] in E. subst s. reflexivity.
  - destruct more as [|b [|c more]]; cbn [List.length] in H; [lia|lia|]. destruct (number_unsigned b) as (v, [|? ?]); reflexivity.
Qed.
Print Assumptions C100_usage.

(** A pin that is too large for an int is another pin: 4294967300 is taken for 4, which is
    refused by no one. *)
Theorem C100_wrap_refuted : forall w delay tries root junk pin, 0 <= pin < 2 ^ 31 ->
  main w delay tries root junk [dec (2 ^ 32 + pin)] = main w delay tries root junk [dec pin].
Proof.
  intros w delay tries root junk pin P. change (2 ^ 31) with 2147483648 in P. change (2 ^ 32) with 4294967296. unfold main.
  destruct (C60_written (4294967296 + pin)) with (s := dec (4294967296 + pin)) as (E1 & _); [change (2 ^ 64) with 18446744073709551616; lia|left; reflexivity|].
  destruct (C60_written pin) with (s := dec pin) as (E2 & _); [change (2 ^ 64) with 18446744073709551616; lia|left; reflexivity|].
  rewrite E1, E2. unfold input, leave. assert (E : s32 (4294967296 + pin) = s32 pin).
  { unfold s32. replace (4294967296 + pin + 2147483648) with (pin + 2147483648 + 1 * 4294967296) by lia. rewrite Z.mod_add by lia. reflexivity. }
  rewrite E. reflexivity.
Qed.
Print Assumptions C100_wrap_refuted.

(** A pin is left exported if its direction cannot be set, or its value not be opened: it
    was exported, and nothing is ever written to the file for unexporting. *)
Theorem C100_exported_refuted : forall delay root pin, 0 <= pin < 2 ^ 31 -> (List.length root <= 4000)%nat -> exists w, forall tries junk, 0 <= tries ->
  let o := main w delay tries root junk [dec pin] in
  exit o = 1 /\ (exists t1 t2, calls o = t1 ++ t2 /\ wrote (exporting root) (dec pin ++ newline) t1) /\ ~ written (unexporting root) (calls o).
Proof.
  intros delay root pin P L. set (good := mkanswers (fun _ => None) (fun _ => None) None None true).
  exists (World good (mkanswers (fun _ => Some EOTHER) (fun _ => None) None None true) good true true true 2 48 true). intros tries junk T. cbn zeta.
  destruct (C60_written pin) with (s := dec pin) as (E2 & _); [split; [apply P|eapply Z.lt_trans; [apply P|reflexivity]]|left; reflexivity|].
  unfold main. rewrite E2. unfold input. rewrite (s32_id pin P). cbn [w_export w_direction w_stat w_fopen].
  assert (X : exists f, export good delay root pin = (0, [Stat f; Fopen f 119; Fputs (dec pin ++ newline); Fflush; Fclose]) /\ f = exporting root).
  { destruct (C78_configure good delay root pin P L) as (X & _). eexists. split; [unfold export, port_generic, configure_generic|].
    - destruct (Z.ltb_spec pin 0); [lia|]. cbn [Z.to_nat Pos.to_nat Pos.iter_op Nat.add attempts stat fopen good negb passes fputs fflush fclose app].
      rewrite utoa_int by exact P. reflexivity.
    - unfold filename, EXPORT. rewrite firstn_all2; [reflexivity|rewrite app_length; cbn; lia]. }
  destruct X as (f & X & ->). unfold setup. rewrite X. cbn [Z.ltb Z.compare].
  set (bad := mkanswers (fun _ => Some EOTHER) (fun _ => None) None None true).
  assert (D : exists r l, direction bad delay tries root pin 0 = (-1, l) /\ (l = [] \/ l = [Stat r])).
  { unfold direction, configure, configure_generic. destruct (Z.ltb_spec pin 0); [lia|]. destruct (Z.to_nat tries); cbn [attempts stat bad retry negb].
    - exists [], []. auto.
    - eexists _, _. split; [reflexivity|]. right. reflexivity. }
  destruct D as (r & l & D & Dl). rewrite D. cbn [Z.ltb Z.compare negb]. unfold leave, unused. cbn [exit calls negb snd]. rewrite !app_nil_r. split; [reflexivity|]. split.
  - eexists _, l. split; [reflexivity|]. exists []. split; [reflexivity|constructor].
  - assert (Ne : exporting root <> unexporting root) by (unfold exporting, unexporting; intros Q; apply app_inv_head in Q; discriminate Q).
    destruct Dl as [-> | ->]; cbn; tauto.
Qed.
Print Assumptions C100_exported_refuted.

(** An empty argument is taken for the pin zero. *)
Theorem C100_empty_refuted : (forall n, ~ numeral [] n) /\ forall w delay tries root junk, main w delay tries root junk [[]] = main w delay tries root junk [dec 0].
Proof. split; [exact (proj2 (proj2 C60_empty_refuted))|reflexivity]. Qed.
Print Assumptions C100_empty_refuted.

(** Pin 4 is read, where the hypotheses hold; and pin 0x11 is written. *)
Example C100_example : let good := mkanswers (fun _ => None) (fun _ => None) None None true in
  let w := World good good good true true true 2 49 true in
  numeral (text "4") 4 /\ ready w 3 /\ releases w /\
  main w 250 3 [115] 99 [text "4"] = Outcome 0
    ([Stat (exporting [115]); Fopen (exporting [115]) 119; Fputs [52; 10]; Fflush; Fclose] ++
     [Stat (file [115] 4 "direction"); Fopen (file [115] 4 "direction") 119; Fputs [105; 110; 10]; Fflush; Fclose] ++
     [Stat (file [115] 4 "value"); Fopen (file [115] 4 "value") 114; Lseek; Read 2] ++
     [Stat (unexporting [115]); Fopen (unexporting [115]) 119; Fputs [52; 10]; Fflush; Fclose; Fclose]) [49; 10] /\
  exit (main w 250 3 [115] 99 [text "0x11"; text "7"]) = 0 /\ In (Write [49; 10]) (calls (main w 250 3 [115] 99 [text "0x11"; text "7"])).
Proof.
  cbv zeta. set (good := mkanswers (fun _ => None) (fun _ => None) None None true).
  assert (O : forall n, (0 < n)%nat -> opens good n) by (intros n H; exists n; repeat split; try lia; intros j J; lia).
  split.
  { apply (numeral_plain [] (text "4") 4); [constructor|]. apply body_dec; [|discriminate|discriminate]. apply (denotes_snoc 10 [] 0 52 4); [constructor|cbn; tauto|lia]. }
  split; [repeat split; apply O; cbn; lia|]. split; [repeat split; apply O; lia|]. split; [reflexivity|]. split; [reflexivity|]. vm_compute. tauto.
Qed.
