From Coq Require Import ZArith List Bool Lia.
From Verif Require Import CInt MeterModel MeterSpec.
Import ListNotations.
Local Open Scope Z_scope.

Lemma u64_id x : 0 <= x < 2 ^ 64 -> u64 x = x.
Proof. unfold u64. apply Z.mod_small. Qed.

Section doubles.
  Variables (huge : Z) (rate : Z -> Z -> Z).
  Hypothesis rate_huge : forall e d, rate e d <= huge.
  Hypothesis huge_pos : 0 <= huge.
  Notation calls := (calls huge rate).
  Notation add_events := (add_events huge rate).
  Notation rates := (rates huge rate).

  (** The events told are the smaller of the sum and the greatest number. *)
  Definition inv (m : meter) (sum : Z) : Prop :=
    0 <= start m <= last m /\ last m < 2 ^ 64 /\ 0 <= sum /\ events m = Z.min most sum /\ 0 <= count m <= events m /\ (0 < sum -> 0 < count m).

  Lemma add_inv m sum now ev : inv m sum -> 0 <= now < 2 ^ 64 -> 0 <= ev < 2 ^ 64 ->
    let '(m', r) := add_events m now ev in
    if now <? last m then m' = m /\ r = Range
    else inv m' (sum + ev) /\ start m' = start m /\ last m' = now /\
      r = if (0 <? ev) && (most <? sum + ev) then Overflow else Success.
  Proof.
    intros (I1 & I2 & I3 & I4 & I5 & I6) Hn He. unfold MeterModel.add_events.
    destruct (Z.ltb_spec now (last m)); [split; reflexivity|].
    destruct (Z.eqb_spec ev 0) as [->|Ne].
    - cbn [andb]. change (0 <? 0) with false. cbn [andb]. split; [|auto]. unfold inv. cbn [start last events count]. rewrite Z.add_0_r. lia.
    - assert (ev >= 1) by lia. destruct (Z.ltb_spec 0 ev); [|lia]. cbn [andb].
      unfold OVERFLOW, most in *. destruct (Z.eqb_spec (count m) 0) as [C0|C0].
      + assert (sum = 0) by lia. subst sum. destruct (Z.ltb_spec (2 ^ 64 - 1) (0 + ev)); [lia|].
        split; [|auto]. unfold inv, most. cbn [start last events count]. lia.
      + rewrite !u64_id by lia. destruct (Z.ltb_spec (18446744073709551615 - count m) 1).
        * destruct (Z.ltb_spec (2 ^ 64 - 1) (sum + ev)); [|lia]. split; [|auto]. unfold inv, most. cbn [start last events count]. lia.
        * destruct (Z.ltb_spec (18446744073709551615 - events m) ev).
          -- destruct (Z.ltb_spec (2 ^ 64 - 1) (sum + ev)); [|lia]. split; [|auto]. unfold inv, most. cbn [start last events count]. lia.
          -- destruct (Z.ltb_spec (2 ^ 64 - 1) (sum + ev)); [lia|].
             destruct (now =? last m); rewrite !u64_id by lia; (split; [|auto]); unfold inv, most; cbn [start last events count]; lia.
  Qed.

  Lemma calls_inv : forall h m sum, sane h -> inv m sum ->
    inv (fst (calls m h)) (sum + total (accepted (last m) h)) /\
    start (fst (calls m h)) = start m /\
    last (fst (calls m h)) = latest (last m) (accepted (last m) h) /\
    snd (calls m h) = answers (last m) sum h.
  Proof.
    induction h as [|[now ev] h IH]; intros m sum Hs I.
    - cbn. rewrite Z.add_0_r. auto.
    - pose proof (Forall_inv Hs) as [Hn He]. pose proof (Forall_inv_tail Hs) as Hs'. cbn [fst snd] in Hn, He.
      pose proof (add_inv m sum now ev I Hn He) as A. cbn [MeterModel.calls accepted answers].
      destruct (add_events m now ev) as [m' r]. destruct (Z.ltb_spec now (last m)).
      + destruct A as (-> & ->). specialize (IH m sum Hs' I). destruct (calls m h) as [m2 rs]. cbn [fst snd] in *.
        destruct IH as (A1 & A2 & A3 & A4). rewrite <- A4. auto.
      + destruct A as (A & A0 & E & ->). specialize (IH m' _ Hs' A). rewrite E in IH. destruct (calls m' h) as [m2 rs]. cbn [fst snd] in *.
        destruct IH as (B1 & B2 & B3 & B4). unfold total in *. cbn [map fold_right snd]. rewrite Z.add_assoc.
        split; [exact B1|]. split; [congruence|]. split; [|rewrite B4; reflexivity].
        rewrite B3. unfold latest. cbn [map fst]. clear. generalize (map fst (accepted now h)). intros l. 
        destruct l as [|x l]; [reflexivity|]. change (List.last (now :: x :: l) (last m)) with (List.last (x :: l) (last m)).
        revert x. induction l as [|y l IH]; intros x; [reflexivity|]. apply (IH y).
  Qed.

  (** As long as the events can be told, everything else is exact. *)
  Lemma calls_exact : forall h m sum, sane h -> inv m sum -> sum + total (accepted (last m) h) <= most ->
    0 <= peak m <= huge -> 0 <= burst m -> (count m = 0 -> burst m = 0) ->
    let a := accepted (last m) h in
    count (fst (calls m h)) = count m + Z.of_nat (length (measurements a)) /\
    burst (fst (calls m h)) = Z.max (burst m) (largest (measurements a)) /\
    peak (fst (calls m h)) = Z.max (peak m) (largest (rates (negb (count m =? 0)) (last m) a)).
  Proof.
    induction h as [|[now ev] h IH]; intros m sum Hs I Ht Hp Hb Hz.
    - cbn. rewrite !Z.max_l by lia. rewrite Z.add_0_r. auto.
    - pose proof (Forall_inv Hs) as [Hn He]. pose proof (Forall_inv_tail Hs) as Hs'. cbn [fst snd] in Hn, He.
      pose proof (add_inv m sum now ev I Hn He) as A. cbn [MeterModel.calls accepted].
      cbn [accepted] in Ht. unfold MeterModel.add_events in *. destruct (Z.ltb_spec now (last m)).
      { specialize (IH m sum Hs' I Ht Hp Hb Hz). destruct (calls m h) as [m2 rs]. exact IH. }
      assert (T0 : forall t h, sane h -> 0 <= total (accepted t h)).
      { clear. intros t h. revert t. induction h as [|[n e] h IH]; intros t Hs; [cbn; lia|].
        pose proof (Forall_inv Hs) as [Hn He]. pose proof (Forall_inv_tail Hs) as Hs'. cbn [fst snd] in *. cbn [accepted].
        destruct (n <? t); [apply IH, Hs'|]. unfold total. cbn [map fold_right snd]. specialize (IH n Hs'). unfold total in IH. lia. }
      assert (Ht' : sum + ev + total (accepted now h) <= most) by (unfold total in *; cbn [map fold_right snd] in Ht; lia).
      specialize (T0 now h Hs').
      assert (So : ((0 <? ev) && (most <? sum + ev)) = false) by (apply andb_false_iff; right; apply Z.ltb_ge; lia). rewrite So in A.
      unfold measurements. cbn [map snd filter MeterSpec.rates]. fold (measurements (accepted now h)).
      destruct (Z.eqb_spec ev 0) as [->|Ne].
      { cbn [negb]. destruct A as (A & _). specialize (IH _ _ Hs' A Ht' Hp Hb Hz). cbn [last peak burst count] in IH.
        destruct (calls _ h) as [m2 rs]. exact IH. }
      cbn [negb length]. destruct (Z.eqb_spec (count m) 0) as [C0|C0].
      { cbn [negb]. destruct A as (A & _). specialize (IH _ _ Hs' A Ht' Hp ltac:(cbn; lia) ltac:(cbn; lia)). cbn [last peak burst count] in IH.
        change (negb (1 =? 0)) with true in IH.
        destruct (calls _ h) as [m2 rs]. cbn [fst] in *. destruct IH as (B1 & B2 & B3).
        split; [lia|]. split; [|exact B3]. cbn [largest fold_right]. fold (largest (measurements (accepted now h))).
        rewrite (Hz C0). lia. }
      cbn [negb]. destruct I as (I1 & I2 & I3 & I4 & I5 & I6). unfold OVERFLOW, most in *.
      assert (Ev : events m = sum) by lia.
      destruct (Z.ltb_spec (u64 (18446744073709551615 - count m)) 1) as [X|X]; [rewrite u64_id in X by lia; lia|].
      destruct (Z.ltb_spec (u64 (18446744073709551615 - events m)) ev) as [Y|Y]; [rewrite u64_id in Y by lia; lia|].
      unfold rate_over. destruct (Z.eqb_spec now (last m)) as [E|E].
      + destruct (Z.eqb_spec (now - last m) 0) as [_|Q]; [|lia]. destruct A as (A & _). rewrite (u64_id (events m + ev)), (u64_id (count m + 1)) in A |- * by lia.
        specialize (IH _ _ Hs' A Ht'). cbn [last peak burst count] in IH.
        specialize (IH ltac:(lia) ltac:(destruct (_ <? _); lia) ltac:(lia)).
        destruct (Z.eqb_spec (count m + 1) 0) as [Q|_] in IH; [lia|]. cbn [negb] in IH.
        destruct (calls _ h) as [m2 rs]. cbn [fst] in *. destruct IH as (B1 & B2 & B3).
        split; [lia|]. cbn [largest fold_right]. fold (largest (measurements (accepted now h))).
        fold (largest (rates true now (accepted now h))). split.
        * rewrite B2. destruct (Z.ltb_spec (burst m) ev); lia.
        * rewrite B3. lia.
      + destruct (Z.eqb_spec (now - last m) 0) as [Q|_]; [lia|]. destruct A as (A & _). rewrite (u64_id (events m + ev)), (u64_id (count m + 1)), (u64_id (now - last m)) in A |- * by lia.
        pose proof (rate_huge ev (now - last m)) as RH.
        specialize (IH _ _ Hs' A Ht'). cbn [last peak burst count] in IH.
        specialize (IH ltac:(destruct (Z.ltb_spec (peak m) (rate ev (now - last m))); lia) ltac:(destruct (burst m <? ev); lia) ltac:(lia)).
        destruct (Z.eqb_spec (count m + 1) 0) as [Q|_] in IH; [lia|]. cbn [negb] in IH.
        destruct (calls _ h) as [m2 rs]. cbn [fst] in *. destruct IH as (B1 & B2 & B3).
        split; [lia|]. cbn [largest fold_right]. fold (largest (measurements (accepted now h))).
        fold (largest (rates true now (accepted now h))). split.
        * rewrite B2. destruct (Z.ltb_spec (burst m) ev); lia.
        * rewrite B3. destruct (Z.ltb_spec (peak m) (rate ev (now - last m))); lia.
  Qed.
End doubles.
