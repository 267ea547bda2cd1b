(** C98: renaming without replacing, and exchanging. *)

From Coq Require Import ZArith List Bool Lia.
From Verif Require Import CInt DiskModel RenameModel RenameSpec RenameProofs.
Import ListNotations.
Local Open Scope Z_scope.

(** With arguments as documented: if it can be done and is not refused then the names
    have changed places and the exit code is 0; otherwise nothing changed and it is 1. *)
Theorem C98_done : forall refused d argv exchange a b, usage argv exchange a b ->
  (refused = false -> possible d exchange a b ->
     exists d', renametool refused d argv = (0, d') /\ exchanged d d' a b) /\
  (refused = true \/ ~ possible d exchange a b -> renametool refused d argv = (1, d)).
Proof.
  intros refused d argv x a b U. rewrite (tool_usage refused d argv x a b U). split.
  - intros -> P. destruct (renameat2 false d a b x) as [d'|] eqn:E; [|destruct (call_none _ _ _ _ E P)].
    exists d'. split; [reflexivity|]. apply (call_some _ _ _ _ _ E).
  - intros [->|N]; [reflexivity|]. destruct refused; [reflexivity|].
    destruct (renameat2 false d a b x) as [d'|] eqn:E; [|reflexivity]. destruct (N (proj1 (call_some _ _ _ _ _ E))).
Qed.
Print Assumptions C98_done.

(** With any other arguments nothing is done and the exit code is 2. *)
Theorem C98_usage : forall refused d argv, (forall exchange a b, ~ usage argv exchange a b) ->
  renametool refused d argv = (2, d).
Proof. exact tool_other. Qed.
Print Assumptions C98_usage.

(** However often it is run, with whatever arguments, by however many users at the same
    time: no file is changed, lost or replaced, each keeps as many names as it had. *)
Theorem C98_nothing_lost : forall d l, rearranged d (fst (runs d l)).
Proof. intros d l. apply runs_rearrange. Qed.
Print Assumptions C98_nothing_lost.

(** Exchanging twice undoes it. *)
Theorem C98_twice : forall d a b d' d'',
  renametool false d [DASH_X; a; b] = (0, d') -> renametool false d' [DASH_X; a; b] = (0, d'') ->
  data d'' = data d /\ forall n, entry d'' n = entry d n.
Proof.
  intros d a b d' d'' H1 H2. rewrite (tool_usage false d _ _ _ _ (Exchanging a b)) in H1.
  rewrite (tool_usage false d' _ _ _ _ (Exchanging a b)) in H2.
  destruct (renameat2 false d a b true) as [e1|] eqn:E1; [|discriminate]. injection H1 as ->.
  destruct (renameat2 false d' a b true) as [e2|] eqn:E2; [|discriminate]. injection H2 as ->.
  apply call_some in E1, E2. destruct E1 as (_ & D1 & _ & A1 & B1 & O1), E2 as (_ & D2 & _ & A2 & B2 & O2).
  split; [congruence|]. intros n. destruct (Z.eq_dec n a) as [->|Na]; [congruence|].
  destruct (Z.eq_dec n b) as [->|Nb]; [congruence|]. rewrite O2, O1 by assumption. reflexivity.
Qed.
Print Assumptions C98_twice.

(** A file whose name is -x cannot be renamed by that name: there is no way to say that
    an argument is not the option. *)
Theorem C98_dash_refuted : forall refused d b, possible d false DASH_X b ->
  renametool refused d [DASH_X; b] = (2, d).
Proof. intros refused d b _. apply tool_other. intros x p q U. inversion U. congruence. Qed.
Print Assumptions C98_dash_refuted.

(** Files 1 and 2, with inodes 10 and 20: renaming 1 to 2 is refused, renaming it to 3
    is done, exchanging the result with 2 too. *)
Definition some_disk : disk := Disk (fun n => if n =? 1 then Some 10 else if n =? 2 then Some 20 else None) (fun i => [i]) 21.
Example C98_example :
  usage [1; 2] false 1 2 /\ ~ possible some_disk false 1 2 /\ possible some_disk false 1 3 /\
  snd (runs some_disk [(false, [1; 2]); (false, [1; 3]); (false, [DASH_X; 3; 2]); (false, [1]); (true, [2; 1])]) = [1; 0; 0; 2; 1] /\
  map (entry (fst (runs some_disk [(false, [1; 2]); (false, [1; 3]); (false, [DASH_X; 3; 2])]))) [1; 2; 3] = [None; Some 10; Some 20] /\
  exists d' d'', renametool false some_disk [DASH_X; 1; 2] = (0, d') /\ renametool false d' [DASH_X; 1; 2] = (0, d'').
Proof.
  split; [constructor; discriminate|]. split; [intros [_ H]; discriminate H|]. split; [split; [discriminate|reflexivity]|].
  split; [reflexivity|]. split; [reflexivity|]. eexists. eexists. split; reflexivity.
Qed.
Definition dash_disk : disk := Disk (fun n => if n =? DASH_X then Some 10 else None) (fun i => [i]) 11.
Example C98_dash_example : possible dash_disk false DASH_X 5.
Proof. split; [discriminate|reflexivity]. Qed.
