(** Property theorems for yes and no. *)

From Coq Require Import ZArith List Bool Lia String.
From Verif Require Import CInt NumberModel NumberSpec NumberProofs NumberProps PinSpec TestifyModel TestifySpec TestifyProofs.
Import ListNotations.
Local Open Scope Z_scope.

(** C88: the words that mean yes, and those that mean no, in small letters, in capitals, or
    in both, mean that. *)
Theorem C88_words : forall s w otherwise,
  (In w trues -> spells s w -> testify (Some s) otherwise = 1) /\ (In w falses -> spells s w -> testify (Some s) otherwise = 0).
Proof.
  intros s w otherwise. unfold spells. split; intros I H; repeat (destruct I as [<-|I]; [cbn [text Ascii.nat_of_ascii] in H; apply alike_first in H; destruct H as (d & s' & -> & A & H); vm_compute (Z.of_nat _) in A;
    destruct A as [->|(_ & ->)]; try reflexivity; apply alike_first in H; destruct H as (d' & s'' & -> & A & _); vm_compute (Z.of_nat _) in A; destruct A as [->|(_ & ->)]; reflexivity|]); destruct I.
Qed.
Print Assumptions C88_words.

(** C88: a number, in decimal, octal or hexadecimal, means yes unless it is zero, if it fits
    in 32 bits. *)
Theorem C88_numbers : forall s n otherwise, body s n -> n < 2 ^ 32 -> testify (Some s) otherwise = if n =? 0 then 0 else 1.
Proof.
  intros s n otherwise B L. destruct (body_first s n B) as (c & s' & -> & D). rewrite testify_digit by exact D. pose proof (body_nonneg _ _ B) as N0.
  pose proof (C60_signed (c :: s') n [] (numeral_plain [] _ n (Forall_nil _) B) I) as E. rewrite app_nil_r in E. unfold number_signed in E. rewrite E. unfold clip. rewrite Z.min_r by lia. rewrite Z.max_r by lia. unfold s32.
  destruct (Z.eqb_spec n 0) as [->|N]; [reflexivity|]. destruct (Z.eqb_spec ((n + 2147483648) mod 4294967296 - 2147483648) 0) as [Q|Q]; [|reflexivity]. exfalso.
  destruct (Z.lt_ge_cases n 2147483648) as [S|S]; [rewrite Z.mod_small in Q; lia|]. replace (n + 2147483648) with (n - 2147483648 + 1 * 4294967296) in Q by lia. rewrite Z_mod_plus_full, Z.mod_small in Q; lia.
Qed.
Print Assumptions C88_numbers.

(** C88: what is more, only what is all a number counts as one: what else starts with a digit
    is what the caller said. *)
Theorem C88_digits : forall c s otherwise, digit c -> testify (Some (c :: s)) otherwise = otherwise \/ exists n, body (c :: s) n.
Proof.
  intros c s otherwise D. rewrite testify_digit by exact D. destruct (strtoll (c :: s)) as (v, rest) eqn:E. destruct rest as [|x rest]; [right|left; reflexivity].
  destruct (C60_all (c :: s) v ltac:(discriminate) E) as (n & N & _). inversion N as [sp b m F B X|sp b m F B X|sp b m F B X]; subst; destruct sp as [|y sp]; cbn [app] in *; try (subst; eauto; fail);
    exfalso; red in D; injection X as X1 X2; try lia; inversion F as [|? ? F1 F2]; cbn in F1; lia.
Qed.
Print Assumptions C88_digits.

(** C88: and the same for whatever starts with no letter or digit that means anything, for the
    empty string, and for none; and it is never anything but yes, no, or what the caller said. *)
Theorem C88_otherwise : forall otherwise, testify None otherwise = otherwise /\ testify (Some []) otherwise = otherwise /\
  (forall c s, ~ digit c -> ~ (65 <= c <= 90) -> ~ (97 <= c <= 122) -> testify (Some (c :: s)) otherwise = otherwise) /\
  forall t, testify t otherwise = 1 \/ testify t otherwise = 0 \/ testify t otherwise = otherwise.
Proof.
  intros otherwise. split; [reflexivity|]. split; [reflexivity|]. split.
  - intros c s A B C. unfold testify. cbn [nth]. red in A. unfold digit in A.
    assert (NO : forall l, Forall (fun x => 48 <= x <= 57 \/ 65 <= x <= 90 \/ 97 <= x <= 122) l -> among c l = false).
    { intros l F. destruct (among c l) eqn:E; [|reflexivity]. apply among_in in E. rewrite Forall_forall in F. specialize (F c E). lia. }
    rewrite !NO by (repeat (apply Forall_cons; [lia|]); apply Forall_nil). reflexivity.
  - intros [s|]; [|right; right; reflexivity]. unfold testify. destruct (among _ ayes); [tauto|]. destruct (among _ noes); [tauto|]. destruct (among _ [111; 79]); [destruct (among _ [110; 78]); [tauto|]; destruct (among _ _); tauto|].
    destruct (among _ _); [|tauto]. destruct (strtoll s) as (v, [|x rest]); [|tauto]. destruct (s32 v =? 0); tauto.
Qed.
Print Assumptions C88_otherwise.

(** C88: but a number that does not fit means no if its low 32 bits are zero: 0x100000000. *)
Theorem C88_large_refuted : exists s n otherwise, body s n /\ n = 2 ^ 32 /\ testify (Some s) otherwise = 0.
Proof.
  exists (text "0x100000000"), (2 ^ 32), 1. split; [|split; reflexivity].
  assert (D0 : denotes 16 [49] 1) by (apply (denotes_snoc 16 [] 0 49 1); [constructor|cbn; tauto|lia]).
  assert (D : forall l n, denotes 16 l n -> denotes 16 (l ++ [48]) (n * 16)) by (intros l n H; rewrite <- (Z.add_0_r (n * 16)); apply denotes_snoc; [exact H|cbn; tauto|lia]).
  change (text "0x100000000") with (48 :: 120 :: [49; 48; 48; 48; 48; 48; 48; 48; 48])%list. apply body_hex; [|discriminate|left; reflexivity].
  exact (D _ _ (D _ _ (D _ _ (D _ _ (D _ _ (D _ _ (D _ _ (D _ _ D0)))))))).
Qed.
Print Assumptions C88_large_refuted.

(** C88: how it is printed: what is in capitals is what it would be anyway, and what is not
    is not, whenever the default is yes or no; and yes and no are told apart. *)
Theorem C88_printable : forall value otherwise, In value [0; 1] -> In otherwise [0; 1] ->
  (In (printable value otherwise) [1; 4] <-> value = otherwise) /\ (In (printable value otherwise) [1; 2] <-> value = 1).
Proof. intros value otherwise H1 H2. cbn in H1, H2. destruct H1 as [<-|[<-|[]]], H2 as [<-|[<-|[]]]; cbn; intuition lia. Qed.
Print Assumptions C88_printable.

(** "EnAbLeD" is yes, "oFF" is no, "010" is yes, "0x0" is no, "09" and "maybe" are neither. *)
Example C88_example :
  spells (text "EnAbLeD") "enabled" /\ In "enabled"%string trues /\ testify (Some (text "EnAbLeD")) 7 = 1 /\ testify (Some (text "oFF")) 7 = 0 /\ testify (Some (text "010")) 7 = 1 /\
  testify (Some (text "0x0")) 7 = 0 /\ testify (Some (text "09")) 7 = 7 /\ testify (Some (text "maybe")) 7 = 7 /\ body (text "010") 8 /\ digit 48.
Proof.
  split. { unfold spells. cbn [text]. vm_compute (Z.of_nat _). repeat (apply Forall2_cons; [first [left; reflexivity|right; lia]|]). apply Forall2_nil. }
  split; [cbn; tauto|]. repeat (split; [vm_compute; reflexivity|]). split; [|red; lia].
  change (text "010") with [48; 49; 48]. apply body_oct; [|reflexivity]. apply (denotes_snoc 8 [48; 49] 1 48 0); [|cbn; tauto|lia]. apply (denotes_snoc 8 [48] 0 49 1); [|cbn; tauto|lia]. apply (denotes_snoc 8 [] 0 48 0); [constructor|cbn; tauto|lia].
Qed.
