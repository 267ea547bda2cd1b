(** The properties: numbers that are read from strings. *)

From Coq Require Import ZArith List Bool.
From Verif Require Import CUtil CInt NumberModel NumberSpec NumberProofs.
Import ListNotations.
Local Open Scope Z_scope.

(** What starts a string is read as the number that it denotes, or the nearest that there
    is; and what comes after it, which is no digit and no letter, is what is returned. *)
Theorem C60_signed : forall s n rest, numeral s n -> ends rest -> number_signed (s ++ rest) = (clip (- 2 ^ 63) (2 ^ 63 - 1) n, rest).
Proof. exact strtoll_ok. Qed.
Print Assumptions C60_signed.
Theorem C60_unsigned : forall s n rest, numeral s n -> ends rest -> number_unsigned (s ++ rest) = (if Z.abs n <? 2 ^ 64 then n mod 2 ^ 64 else 2 ^ 64 - 1, rest).
Proof. exact strtoull_ok. Qed.
Print Assumptions C60_unsigned.
(** " -0x1F," is -31 and a comma; "089" is zero and "89". *)
Example C60_signed_example :
  numeral [32; 45; 48; 120; 49; 70] (-31) /\ ends [44] /\ number_signed [32; 45; 48; 120; 49; 70; 44] = (-31, [44]) /\ number_unsigned [48; 56; 57] = (0, [56; 57]).
Proof.
  split; [|split; [cbn; repeat split; intros [H1 H2]; apply H1 || apply H2; reflexivity|split; reflexivity]].
  apply (numeral_minus [32] [48; 120; 49; 70] 31); [repeat constructor|]. apply (body_hex 120 [49; 70] 31); [|discriminate|left; reflexivity].
  apply (denotes_snoc 16 [49] 1 70 15); [apply (denotes_snoc 16 [] 0 49 1); [constructor|cbn; tauto|reflexivity]|cbn; tauto|reflexivity].
Qed.

(** If any number is read it is one that the string starts with; else nothing is taken from
    the string, and the number is zero. *)
Theorem C60_only : forall s,
  (number_signed s = (0, s) /\ number_unsigned s = (0, s)) \/
  exists a rest n, s = a ++ rest /\ a <> [] /\ numeral a n /\ snd (number_signed s) = rest /\ snd (number_unsigned s) = rest /\
    fst (number_signed s) = clip (- 2 ^ 63) (2 ^ 63 - 1) n /\ fst (number_unsigned s) = (if Z.abs n <? 2 ^ 64 then n mod 2 ^ 64 else 2 ^ 64 - 1).
Proof. intros s. destruct (strto_inv s) as [(_ & H)|H]; [left; exact H|right; exact H]. Qed.
Print Assumptions C60_only.
(** So a string that is taken entirely, and is not empty, is a numeral. *)
Theorem C60_all : forall s v, s <> [] -> number_signed s = (v, []) -> exists n, numeral s n /\ v = clip (- 2 ^ 63) (2 ^ 63 - 1) n.
Proof.
  intros s v N H. destruct (C60_only s) as [(S & _)|(a & rest & n & -> & _ & Nu & R & _ & V & _)]; [congruence|]. rewrite H in R, V. cbn [fst snd] in R, V. subst rest v. rewrite app_nil_r. exists n. auto.
Qed.
Print Assumptions C60_all.
(** A string denotes one number at most. *)
Theorem C60_unique : forall s n m, numeral s n -> numeral s m -> n = m.
Proof.
  intros s n m H1 H2. destruct (subject_ok s n [] H1 I) as (g1 & v1 & E1 & S1 & _). destruct (subject_ok s m [] H2 I) as (g2 & v2 & E2 & S2 & _). congruence.
Qed.
Print Assumptions C60_unique.

(** Each number that there is, as it is written in decimal, hexadecimal or octal, is read
    again. *)
Theorem C60_written : forall n, 0 <= n < 2 ^ 64 -> forall s, In s [dec n; hex n; oct n] ->
  number_unsigned s = (n, []) /\ (n < 2 ^ 63 -> number_signed s = (n, []) /\ number_signed (45 :: s) = (- n, [])).
Proof.
  intros n H s Is. assert (Bd : body s n) by (destruct Is as [<- |[<- |[<- |[]]]]; [apply dec_body|apply hex_body|apply oct_body]; exact H).
  pose proof (numeral_plain [] s n (Forall_nil _) Bd : numeral s n) as B. pose proof (numeral_minus [] s n (Forall_nil _) Bd : numeral (45 :: s) (- n)) as M.
  split.
  - pose proof (C60_unsigned s n [] B I) as U. rewrite app_nil_r in U. rewrite U. rewrite Z.abs_eq by apply H. destruct (Z.ltb_spec n (2 ^ 64)) as [L|L]; [rewrite Z.mod_small by exact H; reflexivity|exfalso; exact (Z.lt_irrefl _ (Z.lt_le_trans _ _ _ (proj2 H) L))].
  - intros L. pose proof (C60_signed s n [] B I) as S. pose proof (C60_signed _ _ [] M I) as S2. rewrite app_nil_r in S, S2. rewrite S, S2. change (2 ^ 63) with 9223372036854775808 in *. unfold clip. split; f_equal; Lia.lia.
Qed.
Print Assumptions C60_written.
Example C60_written_example : dec 255 = [50; 53; 53] /\ hex 255 = [48; 120; 102; 102] /\ oct 255 = [48; 51; 55; 55] /\ number_unsigned [48; 51; 55; 55] = (255, []).
Proof. repeat split; reflexivity. Qed.

(** But that a string is taken entirely does not mean that it denotes the number: the empty
    one is zero; a negative one is a huge one; and one too big is another one. *)
Theorem C60_empty_refuted : number_unsigned [] = (0, []) /\ number_signed [] = (0, []) /\ forall n, ~ numeral [] n.
Proof.
  repeat split. intros n H. destruct (subject_ok [] n [] H I) as (g & v & E & _). discriminate E.
Qed.
Print Assumptions C60_empty_refuted.
Theorem C60_range_refuted : exists s1 s2, numeral s1 (-1) /\ number_unsigned s1 = (2 ^ 64 - 1, []) /\ numeral s2 (2 ^ 64) /\ number_unsigned s2 = (2 ^ 64 - 1, []).
Proof.
  exists [45; 49], (48 :: 120 :: 49 :: repeat 48 16).
  assert (D1 : forall base, 2 <= base -> denotes base [49] 1) by (intros base B; apply (denotes_snoc base [] 0 49 1); [constructor|cbn; tauto|apply Z.le_succ_l; exact B]).
  split; [apply (numeral_minus [] [49] 1); [constructor|apply body_dec; [apply D1; discriminate|discriminate|discriminate]]|]. split; [reflexivity|]. split; [|reflexivity].
  apply (numeral_plain [] _ (2 ^ 64)); [constructor|]. apply body_hex; [|discriminate|left; reflexivity].
  assert (G : forall k, denotes 16 (49 :: repeat 48 k) (16 ^ Z.of_nat k)).
  { induction k as [|k IH]; [apply D1; discriminate|]. replace (49 :: repeat 48 (S k)) with ((49 :: repeat 48 k) ++ [48]) by (cbn [app]; rewrite <- repeat_cons; reflexivity). rewrite Nat2Z.inj_succ, Z.pow_succ_r by apply Nat2Z.is_nonneg. replace (16 * 16 ^ Z.of_nat k) with (16 ^ Z.of_nat k * 16 + 0) by (rewrite Z.add_0_r; apply Z.mul_comm). apply denotes_snoc; [exact IH|left; reflexivity|reflexivity]. }
  exact (G 16%nat).
Qed.
Print Assumptions C60_range_refuted.
