(** Proofs about renaming. *)

From Coq Require Import ZArith List Bool Lia.
From Verif Require Import CInt DiskModel RenameModel RenameSpec.
Import ListNotations.
Local Open Scope Z_scope.

Lemma call_some d a b x d' : renameat2 false d a b x = Some d' -> possible d x a b /\ exchanged d d' a b.
Proof.
  unfold renameat2, possible, exchanged. destruct x.
  - unfold d_rename_exchange. destruct (entry d a) as [i|] eqn:A; [|discriminate].
    destruct (entry d b) as [j|] eqn:B; [|discriminate]. intros [= <-]. unfold set_entry. cbn.
    rewrite Z.eqb_refl. split; [split; discriminate|]. split; [reflexivity|]. split; [reflexivity|].
    split; [reflexivity|]. split.
    + destruct (Z.eqb_spec b a) as [->|N]; [congruence|]. rewrite Z.eqb_refl. reflexivity.
    + intros n N1 N2. rewrite (proj2 (Z.eqb_neq n a) N1), (proj2 (Z.eqb_neq n b) N2). reflexivity.
  - unfold d_rename_noreplace. destruct (entry d a) as [i|] eqn:A; [|discriminate].
    destruct (entry d b) as [j|] eqn:B; [discriminate|]. intros [= <-]. unfold set_entry. cbn.
    rewrite Z.eqb_refl. split; [split; [discriminate|reflexivity]|]. split; [reflexivity|]. split; [reflexivity|].
    split; [reflexivity|]. split.
    + destruct (Z.eqb_spec b a) as [->|N]; [congruence|]. rewrite Z.eqb_refl. reflexivity.
    + intros n N1 N2. rewrite (proj2 (Z.eqb_neq n a) N1), (proj2 (Z.eqb_neq n b) N2). reflexivity.
Qed.

Lemma call_none d a b x : renameat2 false d a b x = None -> ~ possible d x a b.
Proof.
  unfold renameat2, possible. destruct x; unfold d_rename_exchange, d_rename_noreplace;
    destruct (entry d a), (entry d b); try discriminate; intros _ [H1 H2]; congruence.
Qed.

(** The arguments are used as they should be, or none are. *)
Lemma tool_usage refused d argv x a b : usage argv x a b ->
  renametool refused d argv = match renameat2 refused d a b x with None => (1, d) | Some d => (0, d) end.
Proof.
  intros [a' b' N|a' b']; unfold renametool; [|reflexivity]. cbn -[renameat2 DASH_X].
  rewrite (proj2 (Z.eqb_neq a' DASH_X) N). reflexivity.
Qed.
Lemma tool_other refused d argv : (forall x a b, ~ usage argv x a b) -> renametool refused d argv = (2, d).
Proof.
  intros H. unfold renametool.
  destruct (Z.ltb_spec (Z.of_nat (length argv) + 1) 3) as [L|L]; [reflexivity|].
  destruct argv as [|a l]; [cbn in L; lia|]. destruct (Z.eqb_spec a DASH_X) as [->|N].
  - destruct (Z.eqb_spec (Z.of_nat (length (DASH_X :: l)) + 1) (2 + 2)) as [E|E]; [|reflexivity].
    destruct l as [|b [|c [|e l]]]; cbn [length] in E; try lia. exfalso. apply (H true b c). constructor.
  - destruct (Z.eqb_spec (Z.of_nat (length (a :: l)) + 1) (1 + 2)) as [E|E]; [|reflexivity].
    destruct l as [|b [|c l]]; cbn [length] in E; try lia. exfalso. apply (H false a b). constructor. exact N.
Qed.
Lemma usage_dec argv : (exists x a b, usage argv x a b) \/ (forall x a b, ~ usage argv x a b).
Proof.
  destruct argv as [|a [|b [|c [|e l]]]]; try (right; intros x p q U; inversion U; fail).
  - destruct (Z.eq_dec a DASH_X) as [->|N].
    + right. intros x p q U. inversion U. congruence.
    + left. exists false, a, b. constructor. exact N.
  - destruct (Z.eq_dec a DASH_X) as [->|N].
    + left. exists true, b, c. constructor.
    + right. intros x p q U. inversion U. congruence.
Qed.

Lemma rearranged_refl d : rearranged d d.
Proof. split; [reflexivity|]. exists (fun n => n), (fun n => n). repeat split; reflexivity. Qed.
Lemma rearranged_trans d1 d2 d3 : rearranged d1 d2 -> rearranged d2 d3 -> rearranged d1 d3.
Proof.
  intros (A & f & g & B & C & D) (A' & f' & g' & B' & C' & D'). split; [congruence|].
  exists (fun n => f (f' n)), (fun n => g' (g n)). split; [intros n; rewrite B, B'; reflexivity|].
  split; [intros n; rewrite C', C; reflexivity|]. intros n. rewrite D', D. reflexivity.
Qed.
Lemma exchanged_rearranged d d' a b : exchanged d d' a b -> rearranged d d'.
Proof.
  intros (D & _ & A & B & O). split; [exact D|].
  set (f := fun n => if n =? a then b else if n =? b then a else n). exists f, f.
  assert (I : forall n, f (f n) = n).
  { intros n. unfold f. destruct (Z.eqb_spec n a) as [->|N1].
    - destruct (Z.eqb_spec b a); [congruence|]. rewrite Z.eqb_refl. reflexivity.
    - destruct (Z.eqb_spec n b) as [->|N2]; [rewrite Z.eqb_refl; reflexivity|].
      rewrite (proj2 (Z.eqb_neq n a) N1), (proj2 (Z.eqb_neq n b) N2). reflexivity. }
  split; [exact I|]. split; [exact I|]. intros n. unfold f.
  destruct (Z.eqb_spec n a) as [->|N1]; [exact A|]. destruct (Z.eqb_spec n b) as [->|N2]; [exact B|]. apply O; assumption.
Qed.

Lemma tool_rearranges refused d argv : rearranged d (snd (renametool refused d argv)).
Proof.
  destruct (usage_dec argv) as [(x & a & b & U)|U].
  - rewrite (tool_usage refused d argv x a b U). destruct refused; [apply rearranged_refl|].
    destruct (renameat2 false d a b x) as [d'|] eqn:E; [|apply rearranged_refl].
    apply call_some in E. apply (exchanged_rearranged d d' a b), E.
  - rewrite (tool_other refused d argv U). apply rearranged_refl.
Qed.
Lemma runs_rearrange l : forall d, rearranged d (fst (runs d l)).
Proof.
  induction l as [|[r argv] l IH]; intros d; [apply rearranged_refl|]. cbn [runs].
  pose proof (tool_rearranges r d argv) as T. destruct (renametool r d argv) as [xc d1]. cbn [snd] in T.
  specialize (IH d1). destruct (runs d1 l) as [d2 xcs]. cbn [fst] in *. eapply rearranged_trans; eassumption.
Qed.
