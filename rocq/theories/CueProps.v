(** Property C25. *)

From Coq Require Import ZArith List Bool Lia.
From Verif Require Import CInt CueModel CueSpec CueProofs.
Import ListNotations.
Local Open Scope Z_scope.

(** The output starts at the initial level; after each sample it is the common
    level of the last three samples if they agree, and unchanged otherwise. *)
Theorem C25_debounce : forall initial samples x,
  state (run initial []) = high initial /\
  state (run initial (samples ++ [x])) =
  match steady initial (samples ++ [x]) with
  | Some level => level
  | None => state (run initial samples)
  end.
Proof. split; [exact (initial_level initial)|exact (debounced initial samples x)]. Qed.
Print Assumptions C25_debounce.

(** The output changes only on three consecutive samples of the new level. *)
Theorem C25_glitch_free : forall initial samples x,
  let before := state (run initial samples) in
  state (run initial (samples ++ [x])) <> before ->
  high x = negb before /\ recent initial samples 0 = negb before /\ recent initial samples 1 = negb before.
Proof. exact glitch. Qed.
Print Assumptions C25_glitch_free.

(** A level held for three samples is adopted, whatever came before. *)
Theorem C25_adopts : forall initial samples x y z level,
  high x = level -> high y = level -> high z = level ->
  state (run initial (samples ++ [x; y; z])) = level.
Proof.
  intros i l x y z v H1 H2 H3. replace (l ++ [x; y; z]) with (((l ++ [x]) ++ [y]) ++ [z]) by (rewrite <- !app_assoc; reflexivity).
  apply held; [exact H3|rewrite recent_snoc0; exact H2|rewrite recent_snoc, recent_snoc0; exact H1].
Qed.
Print Assumptions C25_adopts.

(** The edge reported compares the output before and after the last sample. *)
Theorem C25_edge : forall initial samples x,
  edge (run initial (samples ++ [x])) =
  match state (run initial samples), state (run initial (samples ++ [x])) with
  | false, false => LOW | false, true => RISING | true, true => HIGH | true, false => FALLING
  end.
Proof. exact edge_meaning. Qed.
Print Assumptions C25_edge.

(** Rises and falls alternate, beginning with the one that leaves the initial
    level. *)
Theorem C25_alternate : forall initial samples,
  alternating (high initial) (changes (edges_from (init initial) samples)).
Proof. intros. exact (edges_alternate samples (init initial)). Qed.
Print Assumptions C25_alternate.

(** The undebounced edges compare the last two samples. *)
Theorem C25_raw_edges : forall initial samples x,
  isrising (run initial (samples ++ [x])) = high x && negb (recent initial samples 0) /\
  isfalling (run initial (samples ++ [x])) = negb (high x) && recent initial samples 0.
Proof. exact raw_edges. Qed.
Print Assumptions C25_raw_edges.

Example C25_example :
  map (fun n => state (run 0 (firstn n [7; 1; 0; 1; 1; 1; 0; 0; 1; 0; 0; 0]))) (seq 0 13) =
    [false; false; false; false; false; false; true; true; true; true; true; true; false] /\
  changes (edges_from (init 0) [7; 1; 0; 1; 1; 1; 0; 0; 1; 0; 0; 0]) = [RISING; FALLING].
Proof. vm_compute. auto. Qed.
