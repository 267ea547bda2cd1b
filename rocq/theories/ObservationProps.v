(** The property of observations: C37. *)

From Coq Require Import ZArith List Bool Lia Arith.
From Verif Require Import CInt CUtil DiskModel ObservationModel ObservationSpec ObservationProofs ObservationProofs2 ObservationProofs3 ObservationProofs4.
Import ListNotations.
Local Open Scope Z_scope.

(** Whatever is interleaved, whoever crashes and whatever fails, what programs see is what
    they would see with a target that changes all at once. *)
Theorem C37_refines (len : Z) (d : disk) (tr : list (nat * act)) (w : world) :
  numbered d -> run len (start d) tr = Some w -> exists r, r_run len (r_start (target_data d)) (history w) = Some r /\ target r = target_data (files w).
Proof. intros N R. destruct (start_inv len d tr w N R) as (r & E & V). exists r. split; [exact E|]. destruct V as (_ & _ & _ & _ & _ & _ & V). congruence. Qed.
Print Assumptions C37_refines.
(** At every moment the target contains what was last committed, or what it contained at
    first. *)
Theorem C37_target (len : Z) (d : disk) (tr : list (nat * act)) (w : world) :
  numbered d -> run len (start d) tr = Some w -> target_data (files w) = current (target_data d) (history w).
Proof. intros N R. destruct (start_inv len d tr w N R) as (r & E & V). apply r_run_target in E. destruct V as (_ & _ & _ & _ & _ & _ & V). cbn in E. congruence. Qed.
Print Assumptions C37_target.
(** What is committed is all that its thread wrote since it made the observation, and that
    only. *)
Theorem C37_commit_contents (len : Z) (d : disk) (tr : list (nat * act)) (w : world) (h1 h2 h3 : list (nat * event)) (t : nat) (l : list Z) :
  numbered d -> run len (start d) tr = Some w -> history w = h1 ++ (t, Returned CREATE true) :: h2 ++ (t, Committed l) :: h3 -> ~ In (t, Returned CREATE true) h2 -> l = written t h2 [].
Proof. intros N R H NI. destruct (start_inv len d tr w N R) as (r & E & _). rewrite H in E. exact (r_commit len _ h1 h2 h3 t l r E NI). Qed.
Print Assumptions C37_commit_contents.
Theorem C37_commit_created (len : Z) (d : disk) (tr : list (nat * act)) (w : world) (t : nat) (l : list Z) :
  numbered d -> run len (start d) tr = Some w -> In (t, Committed l) (history w) -> In (t, Returned CREATE true) (history w).
Proof. intros N R H. destruct (start_inv len d tr w N R) as (r & E & _). eapply r_run_committed; [exact E|exact I|exact H]. Qed.
Print Assumptions C37_commit_created.
(** A reader, which reads a part at a time while others run, gets what the target contained
    when it opened it. *)
Theorem C37_reader (len : Z) (d : disk) (tr : list (nat * act)) (w : world) (h1 h2 h3 : list (nat * event)) (t : nat) (l : option (list Z)) :
  numbered d -> run len (start d) tr = Some w -> history w = h1 ++ (t, Opened) :: h2 ++ (t, Got l) :: h3 -> (forall e, ~ In (t, e) h2) -> l = current (target_data d) h1.
Proof. intros N R H NI. destruct (start_inv len d tr w N R) as (r & E & _). rewrite H in E. exact (r_reader len _ h1 h2 h3 t l r E NI). Qed.
Print Assumptions C37_reader.
(** Other files are left alone. *)
Theorem C37_others (len : Z) (d : disk) (tr : list (nat * act)) (w : world) (n i : Z) :
  numbered d -> run len (start d) tr = Some w -> n <> TARGET -> entry d n = Some i -> entry (files w) n = Some i /\ data (files w) i = data d i.
Proof.
  intros N R NT E. destruct (kinv_run len d tr (start d) _ w (inv_start len d N) (kinv_start d) R) as (K1 & K2 & _). destruct (K1 n NT) as (Q & _); [congruence|]. split; [congruence|]. apply K2. exact (N n i E).
Qed.
Print Assumptions C37_others.
(** And none is left behind, except checkpoints, if all is committed or discarded and no
    function has failed. *)
Theorem C37_no_residue (len : Z) (d : disk) (tr : list (nat * act)) (w : world) (n : Z) :
  numbered d -> run len (start d) tr = Some w -> (forall u, threads w u = Free) -> no_failures (history w) -> n <> TARGET -> (forall t, ~ In (t, Stamped n) (history w)) -> entry (files w) n = entry d n.
Proof.
  intros N R A NF NT NS. destruct (kinv_run len d tr (start d) _ w (inv_start len d N) (kinv_start d) R) as (K1 & _ & _ & _ & K5). destruct (entry d n) as [i|] eqn:E; [destruct (K1 n NT) as (Q & _); [congruence|]; congruence|].
  destruct K5 as [(t & [Q|[Q|[(q & c & Q)|(c & Q)]]])|K5]; try (rewrite A in Q; discriminate Q); [destruct (NF t c Q)|]. destruct (entry (files w) n) eqn:EW; [|reflexivity]. destruct (K5 n NT E) as [(t & i & Q)|(t & Q)]; [congruence|rewrite A in Q; discriminate Q|destruct (NS t Q)].
Qed.
Print Assumptions C37_no_residue.

(** With an observation in hand, a thread that is left to run can commit it: *)
Theorem C37_commit (len : Z) (d : disk) (tr0 : list (nat * act)) (w : world) (t : nat) (n i : Z) (p : pending) (g : list Z) :
  numbered d -> run len (start d) tr0 = Some w -> commit_accepts len = true -> threads w t = Open n i p g ->
  exists tr w', Forall (fun ta => fst ta = t) tr /\ run len w tr = Some w' /\ threads w' t = Free /\ target_data (files w') = Some g /\ entry (files w') n = None /\
    history w' = history w ++ [(t, Called COMMIT); (t, Committed g); (t, Returned COMMIT true)].
Proof. intros N R A T. destruct (start_inv len d tr0 w N R) as (r & _ & V). exact (commit_works len w r t n i p g V (pinv_run len tr0 _ w (pinv_start d) R) A T). Qed.
Print Assumptions C37_commit.
(** or discard it, and the target is as it was; *)
Theorem C37_discard (len : Z) (d : disk) (tr0 : list (nat * act)) (w : world) (t : nat) (n i : Z) (p : pending) (g : list Z) :
  numbered d -> run len (start d) tr0 = Some w -> threads w t = Open n i p g ->
  exists tr w', Forall (fun ta => fst ta = t) tr /\ run len w tr = Some w' /\ threads w' t = Free /\ target_data (files w') = target_data (files w) /\ entry (files w') n = None /\ (forall m, m <> n -> entry (files w') m = entry (files w) m) /\
    history w' = history w ++ [(t, Called DISCARD); (t, Returned DISCARD true)].
Proof. intros N R T. destruct (start_inv len d tr0 w N R) as (r & _ & V). exact (discard_works len w r t n i p g V (pinv_run len tr0 _ w (pinv_start d) R) T). Qed.
Print Assumptions C37_discard.
(** or make a checkpoint, if there is no file of that name yet, that contains all that was
    written so far. *)
Theorem C37_checkpoint (len : Z) (d : disk) (tr0 : list (nat * act)) (w : world) (t : nat) (n i : Z) (p : pending) (g : list Z) (m : Z) :
  numbered d -> run len (start d) tr0 = Some w -> commit_accepts len = true -> threads w t = Open n i p g -> m <> TARGET -> entry (files w) m = None ->
  exists tr w', Forall (fun ta => fst ta = t) tr /\ run len w tr = Some w' /\ threads w' t = Open n i [] g /\ entry (files w') m = Some i /\ data (files w') i = g /\ target_data (files w') = target_data (files w) /\
    (forall q, q <> m -> entry (files w') q = entry (files w) q) /\ history w' = history w ++ [(t, Called CHECKPOINT); (t, Stamped m); (t, Returned CHECKPOINT true)].
Proof. intros N R A T NM E. destruct (start_inv len d tr0 w N R) as (r & _ & V). exact (checkpoint_works len w r t n i p g m V (pinv_run len tr0 _ w (pinv_start d) R) A T NM E). Qed.
Print Assumptions C37_checkpoint.

Example observation_start : numbered disk_example. Proof. intros n i. cbn. destruct (n =? TARGET); [|discriminate]. intros E. injection E as <-. reflexivity. Qed.
Example observation_runs :
  option_map (fun w => (target_data (files w), map (entry (files w)) [0; 7; 8; 20], filter (fun e => match e with (_, Got _) | (_, Committed _) => true | _ => false end) (history w))) (run 5 (start disk_example) observation_example) =
  Some (Some [4; 9; 6; 7; 8], [Some 1; None; Some 2; Some 1], [(0%nat, Committed [4; 9; 6; 7; 8]); (1%nat, Got (Some [1; 2; 3])); (2%nat, Got (Some [4; 9; 6; 7; 8]))]).
Proof. vm_compute. reflexivity. Qed.
(** What is [Open] in the theorems above is reached. *)
Example observation_open :
  option_map (fun w => match threads w 0%nat with Open n i p g => Some (n, i, p, g) | _ => None end) (run 5 (start disk_example) (firstn 7 observation_example)) = Some (Some (7, 1, [(2%nat, [6; 7]); (1%nat, [9])], [4; 9; 6; 7])).
Proof. vm_compute. reflexivity. Qed.

(** ** What does not hold *)

(** A checkpoint is not a copy: it changes with what is written later. *)
Theorem C37_checkpoint_refuted : exists tr w h1 h2, run 5 (start disk_example) tr = Some w /\ history w = h1 ++ (0%nat, Stamped 20) :: h2 /\ written 0 h1 [] = [4; 5] /\ option_map (data (files w)) (entry (files w) 20) = Some [4; 5; 6; 7].
Proof.
  assert (E : option_map (fun w => (history w, option_map (data (files w)) (entry (files w) 20))) (run 5 (start disk_example) checkpoint_example) =
    Some ([(0%nat, Called CREATE); (0%nat, Returned CREATE true); (0%nat, Wrote 0 [4; 5]); (0%nat, Called CHECKPOINT)] ++ (0%nat, Stamped 20) :: [(0%nat, Returned CHECKPOINT true); (0%nat, Wrote 2 [6; 7]); (0%nat, Called COMMIT); (0%nat, Committed [4; 5; 6; 7]); (0%nat, Returned COMMIT true)], Some [4; 5; 6; 7])) by (vm_compute; reflexivity).
  destruct (run 5 (start disk_example) checkpoint_example) as [w|] eqn:R; [|discriminate E]. cbn [option_map] in E. injection E as E1 E2. exists checkpoint_example, w, (firstn 4 (history w)), (skipn 5 (history w)). rewrite E1. split; [exact R|]. split; [reflexivity|]. split; [reflexivity|exact E2].
Qed.
Print Assumptions C37_checkpoint_refuted.
(** A commit that fails returns the stream, which it may have closed: to try again is
    undefined. *)
Theorem C37_retry_refuted : exists tr w, run 5 (start disk_example) tr = Some w /\ In (0%nat, Returned COMMIT false) (history w) /\ threads w 0%nat = Undefined.
Proof.
  assert (E : option_map (fun w => (history w, threads w 0%nat)) (run 5 (start disk_example) retry_example) = Some ([(0%nat, Called CREATE); (0%nat, Returned CREATE true); (0%nat, Wrote 0 [4; 5]); (0%nat, Called COMMIT); (0%nat, Returned COMMIT false)], Undefined)) by (vm_compute; reflexivity).
  destruct (run 5 (start disk_example) retry_example) as [w|] eqn:R; [|discriminate E]. cbn [option_map] in E. injection E as E1 E2. exists retry_example, w. split; [exact R|]. split; [rewrite E1; cbn; tauto|exact E2].
Qed.
Print Assumptions C37_retry_refuted.
(** Create can fail and leave the temporary file. *)
Theorem C37_create_residue_refuted : exists tr w, run 5 (start disk_example) tr = Some w /\ (forall u, threads w u = Free) /\ entry disk_example 7 = None /\ entry (files w) 7 <> None.
Proof.
  exists create_example. eexists. split; [reflexivity|]. split; [|split; [reflexivity|discriminate]]. intros [|u]; reflexivity.
Qed.
Print Assumptions C37_create_residue_refuted.
(** An observation of a path of one character (or none) can be made, and never be
    committed. *)
Theorem C37_short_path_refuted (len : Z) (d : disk) (tr : list (nat * act)) (w : world) (t : nat) (l : list Z) :
  len <= 1 -> numbered d -> run len (start d) tr = Some w -> ~ In (t, Committed l) (history w).
Proof.
  intros L N R H. destruct (commit_accepted len tr (start d) _ w t l (inv_start len d N) R H) as [[]|Q]. unfold commit_accepts in Q. apply andb_true_iff in Q as (Q & _). apply Z.ltb_lt in Q. lia.
Qed.
Print Assumptions C37_short_path_refuted.
Example short_path_runs : option_map (fun w => history w) (run 1 (start disk_example) [(0%nat, Calls CREATE); (0%nat, MakesTemp 7); (0%nat, Proceeds); (0%nat, Returns); (0%nat, Calls COMMIT); (0%nat, Returns)]) = Some [(0%nat, Called CREATE); (0%nat, Returned CREATE true); (0%nat, Called COMMIT); (0%nat, Returned COMMIT false)].
Proof. vm_compute. reflexivity. Qed.
