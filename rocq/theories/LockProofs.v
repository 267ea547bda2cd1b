From Coq Require Import ZArith List Bool Lia Arith.
From Verif Require Import CInt CUtil DiskModel LockModel LockSpec.
Import ListNotations.
Local Open Scope Z_scope.

(** * The steps, one by one *)

Inductive stepr (pid : nat -> Z) (w : world) (t : nat) : act -> world -> Prop :=
| S_crash : threads w t <> Dead -> threads w t <> Undefined -> stepr pid w t Crashes (goes w t (files w) Dead)
| S_call c : threads w t = Idle -> stepr pid w t (Calls c) (notes (goes w t (files w) (Begin c)) t (Called c))
| S_temp c n d' i : threads w t = Begin c -> makes_temp c = true -> n <> LOCKFILE -> d_create (files w) n = Some (d', i) -> stepr pid w t (MakesTemp n) (goes w t d' (Opened c n i))
| S_notemp c n : threads w t = Begin c -> makes_temp c = true -> n <> LOCKFILE -> stepr pid w t (NoTemp n) (goes w t (files w) (Cleanup c n (-1)))
| S_printed c n i : threads w t = Opened c n i -> stepr pid w t Proceeds (goes w t (files w) (Flushing c n i (show (pid t) ++ [10])))
| S_unopened c n i : threads w t = Opened c n i -> stepr pid w t Fails (goes w t (files w) (Cleanup c n (-1)))
| S_write c n i todo k : threads w t = Flushing c n i todo -> (0 < k <= length todo)%nat -> stepr pid w t (Transfers k) (goes w t (d_append (files w) i (firstn k todo)) (Flushing c n i (skipn k todo)))
| S_closed c n i : threads w t = Flushing c n i [] -> stepr pid w t Proceeds (goes w t (files w) (Renaming c n))
| S_unclosed c n i todo : threads w t = Flushing c n i todo -> stepr pid w t Fails (goes w t (files w) Undefined)
| S_renamed c n d' : threads w t = Renaming c n -> installs c (files w) n = Some d' -> stepr pid w t Proceeds (goes w t d' (Cleanup c n 0))
| S_unrenamed c n a : threads w t = Renaming c n -> stepr pid w t a (goes w t (files w) (Cleanup c n (-1)))
| S_unlinked c n rc d' : threads w t = Cleanup c n rc -> d_unlink (files w) n = Some d' -> stepr pid w t Proceeds (goes w t d' (Leaving c rc))
| S_gone c n rc : threads w t = Cleanup c n rc -> entry (files w) n = None -> stepr pid w t Proceeds (goes w t (files w) (Leaving c rc))
| S_prelocked d' i : threads w t = Begin PRELOCK -> d_create (files w) LOCKFILE = Some (d', i) -> stepr pid w t Proceeds (goes w t d' (Leaving PRELOCK 0))
| S_failed c a : threads w t = Begin c -> (c = PRELOCK \/ c = UNLOCK \/ c = CHECK) -> stepr pid w t a (goes w t (files w) (Leaving c (-1)))
| S_unlocked d' : threads w t = Begin UNLOCK -> d_unlink (files w) LOCKFILE = Some d' -> stepr pid w t Proceeds (goes w t d' (Leaving UNLOCK 0))
| S_checks i : threads w t = Begin CHECK -> entry (files w) LOCKFILE = Some i -> stepr pid w t Proceeds (goes w t (files w) (Reading i []))
| S_read i got k : threads w t = Reading i got -> stepr pid w t (Transfers k) (goes w t (files w) (Reading i (got ++ firstn k (skipn (length got) (data (files w) i)))))
| S_checked i got : threads w t = Reading i got -> (length (data (files w) i) <= length got)%nat -> stepr pid w t Proceeds (goes w t (files w) (Leaving CHECK (match scan got with Some z => s32 z | None => 0 end)))
| S_returns c rc : threads w t = Leaving c rc -> stepr pid w t Returns (notes (goes w t (files w) Idle) t (Returned c rc)).

Lemma step_stepr pid w t a w' : step pid w t a = Some w' -> stepr pid w t a w'.
Proof.
  intros E. unfold step in E. destruct (threads w t) as [|c|c n i|c n i todo|c n|c n rc|c rc|i got| |] eqn:PC.
  - destruct a; try discriminate; injection E as <-; [constructor; exact PC|constructor; congruence].
  - destruct a as [c0|n|n| | |k| |]; try (destruct c; discriminate).
    + destruct (makes_temp c && negb (n =? LOCKFILE)) eqn:G; [|destruct c; discriminate]. apply andb_true_iff in G as (G1 & G2). apply negb_true_iff, Z.eqb_neq in G2.
      destruct (d_create (files w) n) as [(d', i)|] eqn:D; [|destruct c; discriminate]. destruct c; try discriminate G1; injection E as <-; eapply S_temp; eauto.
    + destruct (makes_temp c && negb (n =? LOCKFILE)) eqn:G; [|destruct c; discriminate]. apply andb_true_iff in G as (G1 & G2). apply negb_true_iff, Z.eqb_neq in G2. destruct c; try discriminate G1; injection E as <-; eapply S_notemp; eauto.
    + destruct c; try discriminate.
      * destruct (d_create (files w) LOCKFILE) as [(d', i)|] eqn:D; injection E as <-; [eapply S_prelocked; eauto|apply S_failed; auto].
      * destruct (d_unlink (files w) LOCKFILE) as [d'|] eqn:D; injection E as <-; [eapply S_unlocked; eauto|apply S_failed; auto].
      * destruct (entry (files w) LOCKFILE) as [i|] eqn:D; injection E as <-; [eapply S_checks; eauto|apply S_failed; auto].
    + destruct c; try discriminate; injection E as <-; apply S_failed; auto.
    + destruct c; injection E as <-; constructor; congruence.
  - destruct a; try discriminate; injection E as <-; [constructor; exact PC|eapply S_unopened; eauto|constructor; congruence].
  - destruct a as [c0|m|m| | |k| |]; try (destruct todo; discriminate).
    + destruct todo; [|discriminate]. injection E as <-. eapply S_closed; eauto.
    + destruct todo; injection E as <-; eapply S_unclosed; eauto.
    + destruct ((0 <? k) && (k <=? length todo))%nat eqn:G; [|destruct todo; discriminate]. apply andb_true_iff in G as (G1 & G2). apply Nat.ltb_lt in G1. apply Nat.leb_le in G2. destruct todo; injection E as <-; eapply S_write; eauto.
    + destruct todo; injection E as <-; constructor; congruence.
  - destruct a; try discriminate; [|injection E as <-; eapply S_unrenamed; eauto|injection E as <-; constructor; congruence]. destruct (installs c (files w) n) as [d'|] eqn:D; injection E as <-; [eapply S_renamed; eauto|eapply S_unrenamed; eauto].
  - destruct a; try discriminate; [|injection E as <-; constructor; congruence]. destruct (d_unlink (files w) n) as [d'|] eqn:D; injection E as <-; [eapply S_unlinked; eauto|eapply S_gone; eauto]. unfold d_unlink in D. destruct (entry (files w) n); [discriminate|reflexivity].
  - destruct a; try discriminate; injection E as <-; [constructor; exact PC|constructor; congruence].
  - destruct a as [c0|m|m| | |k| |]; try discriminate.
    + destruct (length (data (files w) i) <=? length got)%nat eqn:G; [|discriminate]. apply Nat.leb_le in G. injection E as <-. eapply S_checked; eauto.
    + destruct ((0 <? k) && (k <=? length (skipn (length got) (data (files w) i))))%nat; [|discriminate]. injection E as <-. eapply S_read; eauto.
    + injection E as <-. constructor; congruence.
  - discriminate.
  - discriminate.
Qed.

Lemma goes_same w t d p : threads (goes w t d p) t = p. Proof. unfold goes. cbn. rewrite Nat.eqb_refl. reflexivity. Qed.
Lemma goes_other w t d p u : u <> t -> threads (goes w t d p) u = threads w u. Proof. intros H. unfold goes. cbn. destruct (Nat.eqb_spec u t); [contradiction|reflexivity]. Qed.
Lemma notes_threads w t e : threads (notes w t e) = threads w. Proof. reflexivity. Qed.

(** What a step leaves alone. *)
Lemma step_other pid w t a w' u : stepr pid w t a w' -> u <> t -> threads w' u = threads w u.
Proof. intros S N. destruct S; rewrite ?notes_threads; apply goes_other, N. Qed.
Lemma step_history pid w t a w' : stepr pid w t a w' -> history w' = history w \/ exists e, history w' = history w ++ [(t, e)].
Proof. intros S. destruct S; cbn; eauto. Qed.
Lemma run_history pid : forall tr w w', run pid w tr = Some w' -> exists more, history w' = history w ++ more.
Proof.
  induction tr as [|(t, a) tr IH]; intros w w' E; cbn [run] in E; [injection E as <-; exists []; rewrite app_nil_r; reflexivity|].
  destruct (step pid w t a) as [w1|] eqn:S; [|discriminate]. cbn [bind] in E. destruct (IH w1 w' E) as (more & ->). apply step_stepr, step_history in S as [->|(e & ->)]; [eauto|]. rewrite <- app_assoc. eauto.
Qed.

(** * History and program counter *)

Definition in_call (p : pc) : option api :=
  match p with
  | Begin c | Opened c _ _ | Flushing c _ _ _ | Renaming c _ | Cleanup c _ _ | Leaving c _ => Some c
  | Reading _ _ => Some CHECK
  | _ => None
  end.
Definition quiet (t : nat) (h : list (nat * event)) : Prop := find (fun e => Nat.eqb (fst e) t) h = None.
Definition hinv (w : world) : Prop :=
  forall t c, in_call (threads w t) = Some c -> exists h1 h2, history w = h1 ++ (t, Called c) :: h2 /\ quiet t h2.

Lemma find_app_ {A} (f : A -> bool) l1 l2 : find f (l1 ++ l2) = match find f l1 with Some x => Some x | None => find f l2 end.
Proof. induction l1 as [|x l1 IH]; [reflexivity|]. cbn [app find]. destruct (f x); [reflexivity|exact IH]. Qed.
Lemma quiet_app t h u e : quiet t h -> u <> t -> quiet t (h ++ [(u, e)]).
Proof. unfold quiet. intros Q N. rewrite find_app_, Q. cbn. destruct (Nat.eqb_spec u t); [contradiction|reflexivity]. Qed.

(** A call goes on as the same call. *)
Lemma step_call pid w t a w' c : stepr pid w t a w' -> in_call (threads w' t) = Some c -> in_call (threads w t) = Some c /\ history w' = history w \/ a = Calls c /\ history w' = history w ++ [(t, Called c)].
Proof.
  intros S C. destruct S; rewrite ?notes_threads, goes_same in C; try discriminate C; cbn [in_call] in C; try (injection C as <-); try (left; split; [rewrite ?H; cbn [in_call]; congruence|reflexivity]); try (left; split; [match goal with H : threads w t = _ |- _ => rewrite H end; reflexivity|reflexivity]).
  right. split; reflexivity.
Qed.
Lemma hinv_step pid w t a w' : hinv w -> stepr pid w t a w' -> hinv w'.
Proof.
  intros V S u c C. destruct (Nat.eq_dec u t) as [->|N].
  - destruct (step_call pid w t a w' c S C) as [(C1 & ->)|(_ & ->)]; [apply V, C1|]. exists (history w), []. split; reflexivity.
  - rewrite (step_other pid w t a w' u S N) in C. destruct (V u c C) as (h1 & h2 & E & Q). destruct (step_history pid w t a w' S) as [->|(e & ->)]; [eauto|]. exists h1, (h2 ++ [(t, e)]). split; [rewrite E, <- app_assoc; reflexivity|]. apply quiet_app; auto.
Qed.
Lemma hinv_called w t c : hinv w -> in_call (threads w t) = Some c -> In (t, Called c) (history w).
Proof. intros V C. destruct (V t c C) as (h1 & h2 & -> & _). apply in_app_iff. right. left. reflexivity. Qed.

(** * Names *)

Definition ninv (w : world) : Prop := forall t n, uses (threads w t) n -> n <> LOCKFILE /\ exists c, in_call (threads w t) = Some c /\ makes_temp c = true.
Lemma ninv_step pid w t a w' : ninv w -> stepr pid w t a w' -> ninv w'.
Proof.
  intros V S u m U. destruct (Nat.eq_dec u t) as [->|N]; [|rewrite (step_other pid w t a w' u S N) in U |- *; apply V, U].
  destruct S; rewrite ?notes_threads, goes_same in U |- *; cbn [uses in_call] in U |- *; try contradiction; try subst m;
    try (split; [assumption|exists c; auto]); specialize (V t n); rewrite H in V; exact (V eq_refl).
Qed.
