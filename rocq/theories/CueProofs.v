From Coq Require Import ZArith List Bool Lia Arith.
From Verif Require Import CInt CueModel CueSpec.
Import ListNotations.
Local Open Scope Z_scope.

Lemma truth_high : forall x, truth x = high x.
Proof. reflexivity. Qed.


Lemma run_snoc i l x : run i (l ++ [x]) = debounce (run i l) x.
Proof. unfold run. rewrite fold_left_app. reflexivity. Qed.

Lemma recent_snoc0 i l x : recent i (l ++ [x]) 0 = high x.
Proof. unfold recent. rewrite rev_unit. reflexivity. Qed.
Lemma recent_snoc i l x k : recent i (l ++ [x]) (S k) = recent i l k.
Proof. unfold recent. rewrite rev_unit. reflexivity. Qed.

Lemma taps i l : a (run i l) = recent i l 0 /\ b (run i l) = recent i l 1 /\ c (run i l) = recent i l 2.
Proof.
  induction l as [|x l IH] using rev_ind; [repeat split|].
  rewrite run_snoc, recent_snoc0, !recent_snoc. cbn. destruct IH as (A & B & C). auto.
Qed.

Lemma debounced i l x :
  state (run i (l ++ [x])) =
  match steady i (l ++ [x]) with Some v => v | None => state (run i l) end.
Proof.
  destruct (taps i l) as (A & B & _).
  rewrite run_snoc. unfold steady, state. rewrite recent_snoc0, !recent_snoc.
  cbn [debounce r]. rewrite A, B, (truth_high x).
  destruct (high x), (recent i l 0), (recent i l 1), (r (run i l)); reflexivity.
Qed.

Lemma initial_level i : state (run i []) = high i.
Proof. reflexivity. Qed.

Lemma edge_meaning i l x :
  edge (run i (l ++ [x])) =
  match state (run i l), state (run i (l ++ [x])) with
  | false, false => LOW | false, true => RISING | true, true => HIGH | true, false => FALLING
  end.
Proof.
  rewrite run_snoc. unfold edge, state.
  replace (p (debounce (run i l) x)) with (r (run i l)) by reflexivity.
  destruct (r (run i l)), (r (debounce (run i l) x)); reflexivity.
Qed.

Lemma edges_alternate : forall samples s, alternating (state s) (changes (edges_from s samples)).
Proof.
  induction samples as [|x l IH]; intros s; [exact I|]. cbn [edges_from].
  specialize (IH (debounce s x)). set (s' := debounce s x) in *.
  assert (P : p s' = r s) by reflexivity.
  unfold edge. rewrite P. unfold state in *. destruct (r s), (r s'); cbn; auto.
Qed.

Lemma held i l x v : high x = v -> recent i l 0 = v -> recent i l 1 = v -> state (run i (l ++ [x])) = v.
Proof.
  intros H1 H2 H3. rewrite debounced. unfold steady. rewrite recent_snoc0, !recent_snoc, H1, H2, H3.
  rewrite !eqb_reflx. reflexivity.
Qed.

Lemma glitch i l x : state (run i (l ++ [x])) <> state (run i l) ->
  high x = negb (state (run i l)) /\ recent i l 0 = negb (state (run i l)) /\ recent i l 1 = negb (state (run i l)).
Proof.
  rewrite debounced. unfold steady. rewrite recent_snoc0, !recent_snoc.
  destruct (high x), (recent i l 0), (recent i l 1), (state (run i l)); cbn; intros H; try congruence; auto.
Qed.

Lemma raw_edges i l x :
  isrising (run i (l ++ [x])) = high x && negb (recent i l 0) /\
  isfalling (run i (l ++ [x])) = negb (high x) && recent i l 0.
Proof.
  destruct (taps i l) as (A & _). rewrite run_snoc. unfold isrising, isfalling. cbn. rewrite A. auto.
Qed.
