From Coq Require Import ZArith List Bool Lia.
From Verif Require Import CUtil CInt EscapeModel EscapeSpec EscapeProofs CollapseModel CollapseSpec.
Import ListNotations.
Local Open Scope Z_scope.

Lemma hex_loop_suffix n : forall ff byte count ff' b k, hex_loop n ff byte count = Some (ff', b, k) -> exists pre, ff = pre ++ ff'.
Proof.
  induction n as [|n IH]; intros ff byte count ff' b k H; cbn [hex_loop] in H; [injection H as <- _ _; exists []; reflexivity|].
  destruct ff as [|c ff]; [discriminate|]. destruct (hex_digit c) as [d|]; [|injection H as <- _ _; exists []; reflexivity]. destruct (IH _ _ _ _ _ _ H) as (pre & ->). exists (c :: pre). reflexivity.
Qed.
Lemma octal_loop_suffix n : forall ff byte ff' b, octal_loop n ff byte = Some (ff', b) -> exists pre, ff = pre ++ ff'.
Proof.
  induction n as [|n IH]; intros ff byte ff' b H; cbn [octal_loop] in H; [injection H as <- _; exists []; reflexivity|].
  destruct ff as [|c ff]; [discriminate|]. destruct (is_octal c); [|injection H as <- _; exists []; reflexivity]. destruct (IH _ _ _ _ H) as (pre & ->). exists (c :: pre). reflexivity.
Qed.
Lemma step_suffix c rest ff out : collapse_step c rest = Some (ff, out) -> (exists pre, rest = pre ++ ff) /\ (length out <= 1)%nat.
Proof.
  unfold collapse_step. intros H. destruct (c =? BACKSLASH); [|injection H as <- <-; split; [exists []; reflexivity|cbn; lia]].
  destruct rest as [|y rest]; [discriminate|]. destruct (y =? 0); [injection H as <- <-; split; [exists []; reflexivity|cbn; lia]|].
  destruct ((y =? 10) || (y =? 13)); [injection H as <- <-; split; [exists [y]; reflexivity|cbn; lia]|].
  destruct (letter y) as [x|]; [injection H as <- <-; split; [exists [y]; reflexivity|cbn; lia]|].
  destruct (y =? 120).
  - destruct (hex_loop 2 rest 0 0) as [[[r b] k]|] eqn:E; [|discriminate]. destruct (0 <? k); injection H as <- <-; (split; [|cbn; lia]); [|exists []; reflexivity]. destruct (hex_loop_suffix _ _ _ _ _ _ _ E) as (pre & ->). exists (y :: pre). reflexivity.
  - destruct (is_octal y); [|injection H as <- <-; split; [exists [y]; reflexivity|cbn; lia]].
    destruct (octal_loop 3 (y :: rest) 0) as [[r b]|] eqn:E; [|discriminate]. injection H as <- <-. split; [|cbn; lia]. exact (octal_loop_suffix _ _ _ _ _ E).
Qed.
Lemma put_ok buf t x : (t < length buf)%nat -> put buf t x = Some (firstn t buf ++ x :: skipn (S t) buf).
Proof. intros H. unfold put. destruct (Nat.ltb_spec t (length buf)); [reflexivity|lia]. Qed.
Lemma skipn_past {A} (a b : list A) r : (length a <= r)%nat -> skipn r (a ++ b) = skipn (r - length a) b.
Proof. intros H. rewrite skipn_app. rewrite skipn_all2 by exact H. reflexivity. Qed.
Lemma skipn_skipn_ {A} (l : list A) a b : skipn a (skipn b l) = skipn (b + a) l.
Proof. revert l. induction b as [|b IH]; intros l; [reflexivity|]. destruct l as [|x l]; [rewrite !skipn_nil; reflexivity|]. apply (IH l). Qed.
Lemma suffix_skipn {A} (buf ff : list A) : (exists pre, buf = pre ++ ff) -> skipn (length buf - length ff) buf = ff.
Proof. intros (pre & ->). rewrite app_length, Nat.add_sub. rewrite skipn_app, skipn_all, Nat.sub_diag. reflexivity. Qed.

Lemma in_place_ok fuel : forall buf r t tsize ff out, (t <= r)%nat -> skipn r buf = ff -> Z.of_nat t + tsize <= Z.of_nat (length buf) ->
  collapse_loop fuel ff tsize = Some out -> in_place fuel buf r t tsize = Some (firstn t buf ++ out ++ skipn (t + length out) buf, (t + length out)%nat).
Proof.
  induction fuel as [|fuel IH]; intros buf r t tsize ff out T E L H; cbn [collapse_loop in_place] in *.
  - assert (F : (if 0 <? tsize then Some [0] else Some []) = Some out -> (if 0 <? tsize then let* buf0 := put buf t 0 in Some (buf0, S t) else Some (buf, t)) = Some (firstn t buf ++ out ++ skipn (t + length out) buf, (t + length out)%nat)).
    { destruct (Z.ltb_spec 0 tsize); intros X; injection X as <-; cbn [length app].
      - rewrite put_ok by lia. cbn [bind]. replace (t + 1)%nat with (S t) by lia. reflexivity.
      - rewrite Nat.add_0_r, firstn_skipn. reflexivity. }
    destruct (1 <? tsize); [destruct ff; discriminate|exact (F H)].
  - assert (F : (if 0 <? tsize then Some [0] else Some []) = Some out -> (if 0 <? tsize then let* buf0 := put buf t 0 in Some (buf0, S t) else Some (buf, t)) = Some (firstn t buf ++ out ++ skipn (t + length out) buf, (t + length out)%nat)).
    { destruct (Z.ltb_spec 0 tsize); intros X; injection X as <-; cbn [length app].
      - rewrite put_ok by lia. cbn [bind]. replace (t + 1)%nat with (S t) by lia. reflexivity.
      - rewrite Nat.add_0_r, firstn_skipn. reflexivity. }
    destruct (Z.ltb_spec 1 tsize) as [T1|T1]; [|exact (F H)]. destruct ff as [|c rest]; [discriminate|]. rewrite E. destruct (c =? 0); [exact (F H)|]. clear F.
    destruct (collapse_step c rest) as [[ff o]|] eqn:S; [|discriminate]. cbn [bind]. destruct (step_suffix c rest ff o S) as (Sx & Lo).
    destruct (collapse_loop fuel ff (tsize - Z.of_nat (length o))) as [out'|] eqn:C; [|discriminate]. injection H as <-.
    assert (RL : (length buf = r + Datatypes.S (length rest))%nat). { pose proof (f_equal (@length Z) E) as X. rewrite skipn_length in X. cbn [length] in X. lia. }
    assert (Suf : exists pre, buf = pre ++ ff). { destruct Sx as (pre & Ep). exists (firstn r buf ++ c :: pre). rewrite <- app_assoc. cbn [app]. rewrite <- Ep, <- E. symmetry. apply firstn_skipn. }
    assert (FL : (length ff <= length rest)%nat) by (destruct Sx as (pre & ->); rewrite app_length; lia).
    pose proof (suffix_skipn buf ff Suf) as Sk. set (r' := (length buf - length ff)%nat) in *. assert (R' : (r < r')%nat) by (unfold r'; lia).
    destruct o as [|x [|]]; cbn [length] in Lo; [| |lia]; cbn [put_any bind length app] in *.
    + rewrite Nat.add_0_r. apply IH with ff; [lia|exact Sk|lia|exact C].
    + rewrite put_ok by lia. cbn [bind]. set (buf2 := firstn t buf ++ x :: skipn (Datatypes.S t) buf).
      assert (L2 : length buf2 = length buf) by (unfold buf2; rewrite app_length, firstn_length; cbn [length]; rewrite skipn_length; lia).
      assert (F2 : forall k, (t < k)%nat -> skipn k buf2 = skipn k buf).
      { intros k K. unfold buf2. rewrite skipn_past by (rewrite firstn_length; lia). rewrite firstn_length, Nat.min_l by lia. replace (k - t)%nat with (Datatypes.S (k - t - 1)) by lia. change (skipn (Datatypes.S (k - t - 1)) (x :: skipn (Datatypes.S t) buf)) with (skipn (k - t - 1) (skipn (Datatypes.S t) buf)). rewrite skipn_skipn_. f_equal. lia. }
      rewrite (IH buf2 r' (t + 1)%nat _ ff out'); [|lia|rewrite F2 by lia; exact Sk|rewrite L2; lia|exact C].
      rewrite F2 by lia. f_equal. f_equal; [|lia]. replace (t + 1 + length out')%nat with (t + Datatypes.S (length out'))%nat by lia.
      replace (firstn (t + 1) buf2) with (firstn t buf ++ [x]); [rewrite <- app_assoc; reflexivity|].
      unfold buf2. rewrite firstn_app, firstn_length, Nat.min_l by lia. rewrite firstn_firstn, Nat.min_r by lia. replace (t + 1 - t)%nat with 1%nat by lia. reflexivity.
Qed.
Lemma in_place_all buf tsize out : tsize <= Z.of_nat (length buf) -> collapse buf tsize = Some out ->
  in_place (length buf) buf 0 0 tsize = Some (out ++ skipn (length out) buf, length out).
Proof. intros L H. apply (in_place_ok (length buf) buf 0 0 tsize buf out); [lia|reflexivity|lia|exact H]. Qed.

(** The meaning is no longer than the text. *)
Lemma reads_length s m : reads s m -> text s -> (length m <= length s)%nat.
Proof.
  induction 1 as [|s s' out m S R IH]; intros T; [cbn; lia|]. destruct (step_model s s' out [] T S) as (c & t & _ & _ & _ & T' & L & Lo). rewrite app_length. specialize (IH T'). lia.
Qed.
Lemma arg_ok s m : text s -> reads s m -> in_place (length (s ++ [0])) (s ++ [0]) 0 0 (Z.of_nat (length (s ++ [0]))) = Some (m ++ 0 :: skipn (S (length m)) (s ++ [0]), S (length m)).
Proof.
  intros T R. pose proof (reads_length s m R T) as L. pose proof (collapse_spec s m [] (Z.of_nat (length (s ++ [0]))) T R ltac:(rewrite app_length; cbn [length]; lia)) as C.
  rewrite firstn_all2 in C by (rewrite app_length; cbn [length]; lia). rewrite (in_place_all _ _ _ (Z.le_refl _) C). rewrite app_length. cbn [length]. rewrite Nat.add_1_r, <- app_assoc. reflexivity.
Qed.
Lemma main_step s m args takes : s <> [] -> text s -> reads s m -> collapse_main (s :: args) takes =
  if negb (visible m) then collapse_main args takes
  else let written := match takes with n :: _ => Nat.min n (length m) | [] => length m end in
    if Nat.ltb written (length m) then Some (firstn written m, 1) else let* p := collapse_main args (tl takes) in Some (m ++ fst p, snd p).
Proof.
  intros N T R. destruct s as [|c s]; [contradiction|]. cbn [collapse_main]. rewrite (arg_ok (c :: s) m T R). generalize (skipn (S (length m)) ((c :: s) ++ [0])). intros z0. remember (0 :: z0) as z eqn:Ez. cbn [bind].
  destruct (Z.ltb_spec (Z.of_nat (S (length m))) 1); [lia|]. cbn [orb]. destruct m as [|x m]; [subst z; reflexivity|]. cbn [app nth visible]. rewrite negb_involutive. destruct (x =? 0); [reflexivity|].
  cbv zeta. set (w := x :: m). change (x :: m ++ z) with (w ++ z). replace (S (length w) - 1)%nat with (length w) by lia.
  set (k := match takes with [] => length w | n :: _ => Nat.min n (length w) end). assert (K : (k <= length w)%nat) by (unfold k; destruct takes; lia).
  rewrite !firstn_app. replace (k - length w)%nat with 0%nat by lia. cbn [firstn]. rewrite !app_nil_r.
  destruct (Nat.eqb_spec k (length w)) as [E|E]; cbn [negb].
  - destruct (Nat.ltb_spec k (length w)); [lia|]. rewrite E, firstn_all. reflexivity.
  - destruct (Nat.ltb_spec k (length w)); [reflexivity|lia].
Qed.
Lemma reads_nil m : reads [] m -> m = [].
Proof. inversion 1 as [|? ? ? ? S]; [reflexivity|]. destruct (step_nonnil _ _ S). Qed.
