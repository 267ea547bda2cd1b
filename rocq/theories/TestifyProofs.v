(** Proofs for yes and no. *)

From Coq Require Import ZArith List Bool Lia String.
From Verif Require Import CInt NumberModel NumberSpec NumberProofs NumberProps PinSpec TestifyModel TestifySpec.
Import ListNotations.
Local Open Scope Z_scope.

Lemma among_in : forall c l, among c l = true <-> In c l.
Proof.
  intros. unfold among. rewrite existsb_exists. split; [intros (x & I & E); apply Z.eqb_eq in E; subst; exact I|intros I; exists c; split; [exact I|apply Z.eqb_refl]].
Qed.
Lemma alike_first : forall s c w, Forall2 alike s (c :: w) -> exists d s', s = d :: s' /\ alike d c /\ Forall2 alike s' w.
Proof. intros s c w H. inversion H; subst. eauto. Qed.
Lemma body_first : forall s n, body s n -> exists c s', s = c :: s' /\ digit c.
Proof.
  assert (D : forall base l n, denotes base l n -> base <= 10 -> l <> [] -> exists c s', l = c :: s' /\ digit c).
  { intros base l n H B. induction H as [|l n c d H IH I L]; [congruence|]. intros _. destruct l as [|c' l].
    - exists c, []. split; [reflexivity|]. red. cbn in I. repeat (destruct I as [I|I]; [injection I as <- <-; lia|]). destruct I.
    - destruct IH as (c2 & s2 & E & G); [discriminate|]. rewrite E. exists c2, (s2 ++ [c])%list. split; [reflexivity|exact G]. }
  intros s n H. inversion H; subst.
  - eapply D; [eassumption|lia|assumption].
  - eapply D; [eassumption|lia|destruct s; [discriminate|discriminate]].
  - do 2 eexists. split; [reflexivity|]. red. lia.
Qed.
Lemma body_nonneg : forall s n, body s n -> 0 <= n.
Proof.
  assert (D : forall base l n, 0 <= base -> denotes base l n -> 0 <= n).
  { intros base l n B H. induction H as [|l n c d H IH I L]; [lia|]. cbn in I. repeat (destruct I as [I|I]; [injection I as <- <-; nia|]). destruct I. }
  intros s n H. inversion H; subst; eapply D; try eassumption; lia.
Qed.
Lemma testify_digit : forall c s otherwise, digit c -> testify (Some (c :: s)) otherwise =
  (let '(value, end_) := strtoll (c :: s) in match end_ with [] => if s32 value =? 0 then 0 else 1 | _ => otherwise end).
Proof.
  intros c s otherwise D. unfold testify. cbn [nth]. red in D.
  assert (E : c = 48 \/ c = 49 \/ c = 50 \/ c = 51 \/ c = 52 \/ c = 53 \/ c = 54 \/ c = 55 \/ c = 56 \/ c = 57) by lia. repeat (destruct E as [->|E]; [reflexivity|]). subst c. reflexivity.
Qed.
