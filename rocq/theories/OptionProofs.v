(** Proofs about ports and options. *)

From Coq Require Import ZArith List Bool Lia.
From Verif Require Import CInt CUtil NumberModel NumberSpec NumberProofs OptionModel OptionSpec.
Import ListNotations.
Local Open Scope Z_scope.

Lemma plain_eq s : match s with c :: t => if c =? 58 then t else s | [] => s end = plain s.
Proof.
  destruct s as [|c t]; [reflexivity|]. destruct (Z.eqb_spec c 58) as [->|N]; [reflexivity|]. unfold plain.
  destruct c as [|p|p]; try reflexivity. do 6 (destruct p as [p|p|]; try reflexivity). contradiction.
Qed.

Lemma letter_digit d : 0 <= d < 10 -> letter d = 48 + d.
Proof.
  intros H. assert (d = 0 \/ d = 1 \/ d = 2 \/ d = 3 \/ d = 4 \/ d = 5 \/ d = 6 \/ d = 7 \/ d = 8 \/ d = 9) as D by lia.
  repeat destruct D as [->|D]; try reflexivity. subst d. reflexivity.
Qed.

Lemma utoa_write fuel : forall more n tail, 0 < n < 10 ^ Z.of_nat fuel -> utoa fuel n tail = write (fuel + more) 10 n ++ tail.
Proof.
  induction fuel as [|fuel IH]; intros more n tail H; [cbn in H; lia|]. cbn [utoa plus write]. destruct (Z.eqb_spec n 0); [lia|].
  rewrite <- app_assoc. cbn [app]. rewrite letter_digit by (apply Z.mod_pos_bound; lia).
  pose proof (Z.div_mod n 10 ltac:(lia)). pose proof (Z.mod_pos_bound n 10 ltac:(lia)). rewrite Nat2Z.inj_succ, Z.pow_succ_r in H by lia.
  destruct (Z.eqb_spec (n / 10) 0) as [E|E].
  - rewrite E. destruct (fuel + more)%nat; reflexivity.
  - apply IH. split; [lia|]. apply Z.div_lt_upper_bound; lia.
Qed.

Lemma utoa_dec n : 0 <= n <= 65535 -> utoa 10 n [] = dec n.
Proof.
  intros H. unfold dec. destruct (Z.eqb_spec n 0) as [->|N]; [reflexivity|]. rewrite (utoa_write 10 54) by (cbn; lia). apply app_nil_r.
Qed.

Lemma utoa_text fuel : forall n tail rest, 0 <= n -> ~ In 0 tail -> text (utoa fuel n tail ++ 0 :: rest) = utoa fuel n tail.
Proof.
  assert (T : forall tail rest, ~ In 0 tail -> text (tail ++ 0 :: rest) = tail).
  { induction tail as [|c tail IH]; intros rest N; [reflexivity|]. cbn [app text]. destruct (Z.eqb_spec c 0) as [->|_]; [exfalso; apply N; left; reflexivity|].
    rewrite IH by (intros I; apply N; right; exact I). reflexivity. }
  induction fuel as [|fuel IH]; intros n tail rest H N; cbn [utoa]; [apply T, N|].
  assert (N' : ~ In 0 ((48 + n mod 10) :: tail)) by (intros [I|I]; [pose proof (Z.mod_pos_bound n 10 ltac:(lia)); lia|exact (N I)]).
  destruct (n / 10 =? 0); [apply T, N'|]. apply IH; [apply Z.div_pos; lia|exact N'].
Qed.

Lemma utoa_short fuel : forall n tail, (length (utoa fuel n tail) <= fuel + length tail)%nat.
Proof. induction fuel as [|fuel IH]; intros n tail; cbn [utoa]; [lia|]. destruct (n / 10 =? 0); [cbn [length]; lia|]. etransitivity; [apply IH|cbn [length]; lia]. Qed.

Lemma utoa_five n : 0 <= n <= 65535 -> (length (utoa 10 n []) <= 5)%nat.
Proof.
  intros H. assert (E : utoa 10 n [] = utoa 5 n []).
  { assert (G : forall f g m tail, 0 <= m < 10 ^ Z.of_nat (S f) -> utoa (S f + g) m tail = utoa (S f) m tail).
    { induction f as [|f IH]; intros g m tail B.
      - cbn in B. cbn [utoa plus]. rewrite Z.div_small by lia. reflexivity.
      - change (S (S f) + g)%nat with (S (S f + g)). cbn [utoa]. destruct (m / 10 =? 0); [reflexivity|]. apply IH.
        rewrite (Nat2Z.inj_succ (S f)), Z.pow_succ_r in B by lia. split; [apply Z.div_pos; lia|apply Z.div_lt_upper_bound; lia]. }
    change 10%nat with (S 4 + 5)%nat. apply G. cbn. lia. }
  rewrite E. pose proof (utoa_short 5 n []) as U. cbn [length] in U. lia.
Qed.

Lemma set_at_some n : forall x l, (n < length l)%nat -> exists r, set_at n x l = Some r /\ length r = length l /\ nth n r 0 = x /\
  (forall k, k <> n -> nth k r 0 = nth k l 0) /\ firstn n r = firstn n l.
Proof.
  induction n as [|n IH]; intros x [|y l] H; cbn [length] in H; try lia; cbn [set_at].
  - exists (x :: l). split; [reflexivity|]. split; [reflexivity|]. split; [reflexivity|]. split; [|reflexivity]. intros [|k] K; [congruence|reflexivity].
  - destruct (IH x l ltac:(lia)) as (r & -> & L & Hn & Ho & F). exists (y :: r). cbn [bind length nth firstn]. split; [reflexivity|]. split; [congruence|].
    split; [exact Hn|]. split; [|congruence]. intros [|k] K; [reflexivity|]. apply Ho. congruence.
Qed.
