(** The property of lock files: C36. *)

From Coq Require Import ZArith List Bool Lia Arith.
From Verif Require Import CInt CUtil DiskModel LockModel LockSpec LockProofs LockProofs2 LockProofs3 LockProofs4.
Import ListNotations.
Local Open Scope Z_scope.

(** At most one thread holds the lock, whatever is interleaved, crashes or fails (and
    whatever names mkstemp chooses). *)
Theorem C36_exclusion (pid : nat -> Z) (d : disk) (tr : list (nat * act)) (w : world) (t u : nat) :
  run pid (start d) tr = Some w -> well_behaved (history w) -> holds (history w) t -> holds (history w) u -> t = u.
Proof.
  intros R WB T U. destruct (xinv_run pid tr (start d) w (hinv_start d) (ninv_start d) (xinv_start d) WB R) as ((X & _) & _). apply X; left; assumption.
Qed.
Print Assumptions C36_exclusion.
(** While it is held there is a lock file. *)
Theorem C36_held (pid : nat -> Z) (d : disk) (tr : list (nat * act)) (w : world) (t : nat) :
  run pid (start d) tr = Some w -> well_behaved (history w) -> holds (history w) t -> lock_data (files w) <> None.
Proof.
  intros R WB T. destruct (xinv_run pid tr (start d) w (hinv_start d) (ninv_start d) (xinv_start d) WB R) as ((_ & X) & _). specialize (X t (or_introl T)). unfold lock_data. destruct (entry (files w) LOCKFILE); [discriminate|congruence].
Qed.
Print Assumptions C36_held.
(** At every moment, with threads crashed or stopped anywhere: the lock file is absent, or
    empty and made by prelock, or complete, with the process identifier of a thread whose
    call succeeded (or has not returned). *)
Theorem C36_contents (pid : nat -> Z) (d : disk) (tr : list (nat * act)) (w : world) (l : list Z) :
  (forall u, 0 < pid u < 2147483648) -> unlocked d -> lucky pid (start d) tr -> run pid (start d) tr = Some w -> lock_data (files w) = Some l -> contents pid (history w) l.
Proof.
  intros PID UL L R E. destruct (run_inv d pid PID UL tr (start d) w (hinv_start d) (ninv_start d) (jinv_start pid d UL) (kinv_start d) L R) as (_ & _ & (_ & _ & J & _) & _).
  unfold lock_data in E. destruct (entry (files w) LOCKFILE) as [i|] eqn:EI; [|discriminate]. injection E as <-. destruct (J i eq_refl) as [(E & t & G)|(t & c & G & K & E)]; [left; split; [exact E|exists t]|right; exists t, c; split; [|split; [exact K|exact E]]]; apply good_succeeded, G.
Qed.
Print Assumptions C36_contents.
(** So is what is seen by check, which reads it a part at a time while others run: -1, or 0
    for prelocked, or the process identifier of a thread whose call succeeded. *)
Theorem C36_check (pid : nat -> Z) (d : disk) (tr : list (nat * act)) (w : world) (t : nat) (rc : Z) :
  (forall u, 0 < pid u < 2147483648) -> unlocked d -> lucky pid (start d) tr -> run pid (start d) tr = Some w -> In (t, Returned CHECK rc) (history w) -> checked pid (history w) rc.
Proof.
  intros PID UL L R I. destruct (run_inv d pid PID UL tr (start d) w (hinv_start d) (ninv_start d) (jinv_start pid d UL) (kinv_start d) L R) as (_ & _ & (_ & _ & _ & _ & J) & _).
  destruct (J t rc I) as [E|[(E & u & G)|(u & c & G & K & E)]]; [left; exact E|right; left; split; [exact E|exists u]|right; right; exists u, c; split; [|split; [exact K|exact E]]]; apply good_succeeded, G.
Qed.
Print Assumptions C36_check.
(** While a thread holds the lock, the lock file is its own: complete, if it called lock, or
    prelock and then postlock; and empty or complete, if it has only called prelock. *)
Theorem C36_owner (pid : nat -> Z) (d : disk) (tr : list (nat * act)) (w : world) (t : nat) :
  (forall u, 0 < pid u < 2147483648) -> unlocked d -> lucky pid (start d) tr -> run pid (start d) tr = Some w -> well_behaved (history w) -> proper (history w) ->
  (holds_by (history w) t LOCK \/ postlocked (history w) t -> lock_data (files w) = Some (show (pid t) ++ [10])) /\
  (holds (history w) t -> lock_data (files w) = Some [] \/ lock_data (files w) = Some (show (pid t) ++ [10])).
Proof.
  intros PID UL L R WB PR. destruct (xinv_run pid tr (start d) w (hinv_start d) (ninv_start d) (xinv_start d) WB R) as (_ & HV & _).
  destruct (run_oinv pid PID tr (start d) w (hinv_start d) (ninv_start d) (xinv_start d) (jinv_start pid d UL) (oinv_start pid d) WB PR L R) as (_ & O2 & O3 & O4). split.
  - intros Q. apply O3. destruct Q as [Q|Q]; [left; exact Q|right; left; exact Q].
  - intros Q. apply O4; [left; exact Q|]. intros B. apply (unlocking_holds w t HV); [rewrite B; reflexivity|exact Q].
Qed.
Print Assumptions C36_owner.
(** No other file is touched; and no temporary file is left when all have returned. *)
Theorem C36_others (pid : nat -> Z) (d : disk) (tr : list (nat * act)) (w : world) (n i : Z) :
  (forall u, 0 < pid u < 2147483648) -> unlocked d -> lucky pid (start d) tr -> run pid (start d) tr = Some w -> n <> LOCKFILE -> entry d n = Some i -> entry (files w) n = Some i /\ data (files w) i = data d i.
Proof.
  intros PID UL L R N E. destruct (run_inv d pid PID UL tr (start d) w (hinv_start d) (ninv_start d) (jinv_start pid d UL) (kinv_start d) L R) as (_ & _ & _ & (K1 & K2 & _)).
  split; [rewrite <- E; apply K1; [exact N|congruence]|]. apply K2. destruct UL as (_ & UL). apply (UL n), E.
Qed.
Print Assumptions C36_others.
Theorem C36_no_residue (pid : nat -> Z) (d : disk) (tr : list (nat * act)) (w : world) (n : Z) :
  (forall u, 0 < pid u < 2147483648) -> unlocked d -> lucky pid (start d) tr -> run pid (start d) tr = Some w -> (forall u, threads w u = Idle) -> n <> LOCKFILE -> entry (files w) n = entry d n.
Proof.
  intros PID UL L R A N. destruct (run_inv d pid PID UL tr (start d) w (hinv_start d) (ninv_start d) (jinv_start pid d UL) (kinv_start d) L R) as (_ & _ & _ & (K1 & _ & _ & _ & K5)).
  destruct (entry d n) as [i|] eqn:E; [rewrite <- E; apply K1; [exact N|congruence]|]. destruct (K5) with (n := n) as [(t & U)|Q]; auto; [intros u; rewrite A; split; discriminate|]. rewrite A in U. destruct U.
Qed.
Print Assumptions C36_no_residue.
(** A thread that finds no lock file and is not interrupted gets the lock; one that finds it
    does not. *)
Theorem C36_lock (pid : nat -> Z) (w : world) (t : nat) (n : Z) :
  threads w t = Idle -> n <> LOCKFILE -> entry (files w) n = None -> 1 <= pid t <= 2147483647 ->
  exists w', run pid w ([(t, Calls LOCK); (t, MakesTemp n); (t, Proceeds); (t, Transfers (length (show (pid t) ++ [10]))); (t, Proceeds); (t, Proceeds); (t, Proceeds); (t, Returns)]) = Some w' /\
    threads w' t = Idle /\ history w' = history w ++ [(t, Called LOCK); (t, Returned LOCK (match lock_data (files w) with None => 0 | Some _ => -1 end))] /\
    (lock_data (files w) = None -> lock_data (files w') = Some (show (pid t) ++ [10])) /\
    (entry (files w) LOCKFILE <> None -> entry (files w') LOCKFILE = entry (files w) LOCKFILE) /\ entry (files w') n = None.
Proof.
  intros T N E P. cbn [run]. set (l := show (pid t) ++ [10]). assert (LP : (0 < length l)%nat) by (unfold l; rewrite app_length; cbn [length]; lia).
  unfold step at 1. rewrite T. cbn [bind].
  unfold step at 1. rewrite notes_threads, goes_same. cbn [makes_temp andb files notes goes]. rewrite (proj2 (Z.eqb_neq n LOCKFILE) N). cbn [negb]. unfold d_create. rewrite E. cbn [bind].
  unfold step at 1. rewrite goes_same. cbn [bind]. fold l.
  unfold step at 1. rewrite goes_same. rewrite (proj2 (Nat.ltb_lt 0 (length l)) LP), Nat.leb_refl. cbn [andb].
  assert (NL : l <> []) by (intros EL; rewrite EL in LP; cbn in LP; lia). destruct l as [|x l0] eqn:EL; [congruence|]. rewrite <- EL in *. clear EL x l0. cbn [bind]. rewrite firstn_all, skipn_all.
  unfold step at 1. rewrite goes_same. cbn [bind].
  unfold step at 1. rewrite goes_same. cbn [files goes installs]. unfold d_rename_noreplace, lock_data. cbn [entry d_append]. rewrite Z.eqb_refl, (proj2 (Z.eqb_neq LOCKFILE n)) by congruence.
  destruct (entry (files w) LOCKFILE) as [j|] eqn:E0; cbn [bind option_map].
  - unfold step at 1. rewrite goes_same. cbn [files goes]. unfold d_unlink. cbn [entry d_append]. rewrite Z.eqb_refl. cbn [bind].
    unfold step at 1. rewrite goes_same. cbn [bind]. eexists. split; [reflexivity|]. rewrite notes_threads, goes_same. split; [reflexivity|]. cbn [history notes goes]. rewrite <- app_assoc. split; [reflexivity|]. split; [discriminate|]. cbn [files notes goes set_entry entry d_append]. rewrite (proj2 (Z.eqb_neq LOCKFILE n)) by congruence. rewrite Z.eqb_refl. split; [intros _; exact E0|reflexivity].
  - unfold step at 1. rewrite goes_same. cbn [files goes]. unfold d_unlink. cbn [entry set_entry]. rewrite Z.eqb_refl. cbn [bind].
    unfold step at 1. rewrite goes_same. cbn [bind]. eexists. split; [reflexivity|]. rewrite notes_threads, goes_same. split; [reflexivity|]. cbn [history notes goes]. rewrite <- app_assoc. split; [reflexivity|]. cbn [files notes goes set_entry entry d_append data]. rewrite (proj2 (Z.eqb_neq LOCKFILE n)) by congruence. rewrite !Z.eqb_refl. cbn [option_map]. rewrite !Z.eqb_refl. split; [reflexivity|]. split; [congruence|reflexivity].
Qed.
Print Assumptions C36_lock.

(** Postlock, when not interrupted, replaces a lock file, and does nothing if there is none. *)
Theorem C36_postlock (pid : nat -> Z) (w : world) (t : nat) (n : Z) :
  threads w t = Idle -> n <> LOCKFILE -> entry (files w) n = None ->
  exists w', run pid w ([(t, Calls POSTLOCK); (t, MakesTemp n); (t, Proceeds); (t, Transfers (length (show (pid t) ++ [10]))); (t, Proceeds); (t, Proceeds); (t, Proceeds); (t, Returns)]) = Some w' /\
    threads w' t = Idle /\ history w' = history w ++ [(t, Called POSTLOCK); (t, Returned POSTLOCK (match lock_data (files w) with None => -1 | Some _ => 0 end))] /\
    (lock_data (files w) <> None -> lock_data (files w') = Some (show (pid t) ++ [10])) /\
    (lock_data (files w) = None -> lock_data (files w') = None) /\ entry (files w') n = None.
Proof.
  intros T N E. cbn [run]. set (l := show (pid t) ++ [10]). assert (LP : (0 < length l)%nat) by (unfold l; rewrite app_length; cbn [length]; lia).
  unfold step at 1. rewrite T. cbn [bind].
  unfold step at 1. rewrite notes_threads, goes_same. cbn [makes_temp andb files notes goes]. rewrite (proj2 (Z.eqb_neq n LOCKFILE) N). cbn [negb]. unfold d_create. rewrite E. cbn [bind].
  unfold step at 1. rewrite goes_same. cbn [bind]. fold l.
  unfold step at 1. rewrite goes_same. rewrite (proj2 (Nat.ltb_lt 0 (length l)) LP), Nat.leb_refl. cbn [andb].
  assert (NL : l <> []) by (intros EL; rewrite EL in LP; cbn in LP; lia). destruct l as [|x l0] eqn:EL; [congruence|]. rewrite <- EL in *. clear EL x l0. cbn [bind]. rewrite firstn_all, skipn_all.
  unfold step at 1. rewrite goes_same. cbn [bind].
  unfold step at 1. rewrite goes_same. cbn [files goes installs]. unfold d_rename_exchange, lock_data. cbn [entry d_append]. rewrite Z.eqb_refl, (proj2 (Z.eqb_neq LOCKFILE n)) by congruence.
  destruct (entry (files w) LOCKFILE) as [j|] eqn:E0; cbn [bind option_map].
  - unfold step at 1. rewrite goes_same. cbn [files goes]. unfold d_unlink. cbn [entry set_entry]. rewrite Z.eqb_refl. cbn [bind].
    unfold step at 1. rewrite goes_same. cbn [bind]. eexists. split; [reflexivity|]. rewrite notes_threads, goes_same. split; [reflexivity|]. cbn [history notes goes]. rewrite <- app_assoc. split; [reflexivity|]. cbn [files notes goes set_entry entry d_append data]. rewrite (proj2 (Z.eqb_neq LOCKFILE n)) by congruence. rewrite !Z.eqb_refl. cbn [option_map]. rewrite !Z.eqb_refl. split; [reflexivity|]. split; [congruence|reflexivity].
  - unfold step at 1. rewrite goes_same. cbn [files goes]. unfold d_unlink. cbn [entry d_append]. rewrite Z.eqb_refl. cbn [bind].
    unfold step at 1. rewrite goes_same. cbn [bind]. eexists. split; [reflexivity|]. rewrite notes_threads, goes_same. split; [reflexivity|]. cbn [history notes goes]. rewrite <- app_assoc. split; [reflexivity|]. split; [congruence|]. cbn [files notes goes set_entry entry d_append]. rewrite (proj2 (Z.eqb_neq LOCKFILE n)) by congruence. rewrite Z.eqb_refl, E0. split; reflexivity.
Qed.
Print Assumptions C36_postlock.
(** Prelock, when not interrupted, makes the lock file if there is none; unlock removes it if
    there is one. *)
Theorem C36_prelock (pid : nat -> Z) (w : world) (t : nat) :
  threads w t = Idle ->
  exists w', run pid w [(t, Calls PRELOCK); (t, Proceeds); (t, Returns)] = Some w' /\ threads w' t = Idle /\
    history w' = history w ++ [(t, Called PRELOCK); (t, Returned PRELOCK (match lock_data (files w) with None => 0 | Some _ => -1 end))] /\
    lock_data (files w') = match lock_data (files w) with None => Some [] | l => l end.
Proof.
  intros T. cbn [run]. unfold step at 1. rewrite T. cbn [bind]. unfold step at 1. rewrite notes_threads, goes_same. cbn [files notes goes]. unfold d_create, lock_data. destruct (entry (files w) LOCKFILE) as [j|] eqn:E0; cbn [bind option_map].
  - unfold step at 1. rewrite goes_same. cbn [bind]. eexists. split; [reflexivity|]. rewrite notes_threads, goes_same. split; [reflexivity|]. cbn [history notes goes files]. rewrite <- app_assoc, E0. split; reflexivity.
  - unfold step at 1. rewrite goes_same. cbn [bind]. eexists. split; [reflexivity|]. rewrite notes_threads, goes_same. split; [reflexivity|]. cbn [history notes goes files entry data]. rewrite <- app_assoc, Z.eqb_refl. cbn [option_map]. rewrite Z.eqb_refl. split; reflexivity.
Qed.
Print Assumptions C36_prelock.
Theorem C36_unlock (pid : nat -> Z) (w : world) (t : nat) :
  threads w t = Idle ->
  exists w', run pid w [(t, Calls UNLOCK); (t, Proceeds); (t, Returns)] = Some w' /\ threads w' t = Idle /\
    history w' = history w ++ [(t, Called UNLOCK); (t, Returned UNLOCK (match lock_data (files w) with None => -1 | Some _ => 0 end))] /\ lock_data (files w') = None.
Proof.
  intros T. cbn [run]. unfold step at 1. rewrite T. cbn [bind]. unfold step at 1. rewrite notes_threads, goes_same. cbn [files notes goes]. unfold d_unlink, lock_data. destruct (entry (files w) LOCKFILE) as [j|] eqn:E0; cbn [bind option_map].
  - unfold step at 1. rewrite goes_same. cbn [bind]. eexists. split; [reflexivity|]. rewrite notes_threads, goes_same. split; [reflexivity|]. cbn [history notes goes files set_entry entry]. rewrite <- app_assoc, Z.eqb_refl. split; reflexivity.
  - unfold step at 1. rewrite goes_same. cbn [bind]. eexists. split; [reflexivity|]. rewrite notes_threads, goes_same. split; [reflexivity|]. cbn [history notes goes files]. rewrite <- app_assoc, E0. split; reflexivity.
Qed.
Print Assumptions C36_unlock.

(** Without that luck, a lock file can contain less than a process identifier: thread 0,
    having renamed its temporary file, unlinks that of thread 1, for which the name was
    chosen again; thread 2 makes it a third time; and thread 1 renames that. *)
Theorem C36_reuse_refuted : exists tr w l, run pid_example (start empty_disk) tr = Some w /\ well_behaved (history w) /\ proper (history w) /\ defined w /\ lock_data (files w) = Some l /\ ~ contents pid_example (history w) l.
Proof.
  set (tr := [(0%nat, Calls LOCK); (0%nat, MakesTemp 7); (0%nat, Proceeds); (0%nat, Transfers 4); (0%nat, Proceeds); (0%nat, Proceeds); (1%nat, Calls LOCK); (1%nat, MakesTemp 7); (1%nat, Proceeds); (1%nat, Transfers 4); (1%nat, Proceeds); (0%nat, Proceeds); (0%nat, Returns); (0%nat, Calls UNLOCK); (0%nat, Proceeds); (0%nat, Returns);
    (2%nat, Calls LOCK); (2%nat, MakesTemp 7); (2%nat, Proceeds); (2%nat, Transfers 1); (1%nat, Proceeds)]).
  assert (PR : option_map (fun w => (lock_data (files w), history w, map (threads w) [0; 1; 2]%nat)) (run pid_example (start empty_disk) tr) = Some (Some [49], [(0%nat, Called LOCK); (1%nat, Called LOCK); (0%nat, Returned LOCK 0); (0%nat, Called UNLOCK); (0%nat, Returned UNLOCK 0); (2%nat, Called LOCK)], [Idle; Cleanup LOCK 7 0; Flushing LOCK 7 2 [48; 50; 10]])) by (vm_compute; reflexivity).
  destruct (run pid_example (start empty_disk) tr) as [w|] eqn:R; [|discriminate PR]. exists tr, w, [49]. cbn [option_map] in PR. assert (P : lock_data (files w) = Some [49] /\ history w = [(0%nat, Called LOCK); (1%nat, Called LOCK); (0%nat, Returned LOCK 0); (0%nat, Called UNLOCK); (0%nat, Returned UNLOCK 0); (2%nat, Called LOCK)] /\ map (threads w) [0; 1; 2]%nat = [Idle; Cleanup LOCK 7 0; Flushing LOCK 7 2 [48; 50; 10]]) by (repeat split; congruence). clear PR.
  destruct P as (P1 & P2 & P3). split; [exact R|]. rewrite P2. split; [|split; [|split; [|split; [exact P1|]]]].
  - split.
    + intros h1 h2 t E. exists LOCK. split; [auto|]. destruct h1 as [|a1 [|a2 [|a3 [|a4 [|a5 [|a6 h1]]]]]]; cbn [app] in E; try discriminate E.
      * injection E as <- <- <- <- _. exists [(0%nat, Called LOCK); (1%nat, Called LOCK)], []. split; [reflexivity|intros []].
      * destruct h1; discriminate E.
    + intros t I. cbn in I. intuition discriminate.
  - intros h1 h2 t E. destruct h1 as [|a1 [|a2 [|a3 [|a4 [|a5 [|a6 h1]]]]]]; cbn [app] in E; try discriminate E. destruct h1; discriminate E.
  - intros t U. assert (K : forall tr w0 w1, run pid_example w0 tr = Some w1 -> ~ In t (map fst tr) -> threads w1 t = threads w0 t).
    { clear. induction tr as [|(x, a) tr IH]; intros w0 w1 E NI; cbn [run] in E; [congruence|]. destruct (step pid_example w0 x a) as [w2|] eqn:S; [|discriminate]. cbn [bind map In] in *. rewrite (IH w2 w1 E) by tauto. eapply step_other; [apply step_stepr, S|intros ->; apply NI; left; reflexivity]. }
    injection P3 as Q0 Q1 Q2. destruct t as [|[|[|t]]]; try congruence. rewrite (K tr _ _ R) in U; [discriminate|]. cbn. intuition lia.
  - intros [(E & _)|(t & c & _ & _ & E)]; [discriminate|]. apply (app_inj_tail [] _ 49 10) in E as (_ & E). discriminate E.
Qed.
Print Assumptions C36_reuse_refuted.
(** If the disk is full when the stream is closed, it is closed again. *)
Theorem C36_fclose_refuted : exists tr w, run pid_example (start empty_disk) tr = Some w /\ lucky pid_example (start empty_disk) tr /\ well_behaved (history w) /\ ~ defined w.
Proof.
  exists [(0%nat, Calls LOCK); (0%nat, MakesTemp 7); (0%nat, Proceeds); (0%nat, Transfers 1); (0%nat, Fails)]. eexists. split; [reflexivity|]. split; [apply (luckyb_lucky 1); reflexivity|]. split.
  - split; [intros h1 h2 t E; destruct h1 as [|a [|b h1]]; discriminate E|intros t I; cbn in I; intuition discriminate].
  - intros D. apply (D 0%nat). reflexivity.
Qed.
Print Assumptions C36_fclose_refuted.
(** If all names that mkstemp tries are those of files, the last of these files is removed. *)
Theorem C36_mkstemp_refuted : exists d tr w, unlocked d /\ run pid_example (start d) tr = Some w /\ well_behaved (history w) /\ (forall u, threads w u = Idle) /\ entry d 7 = Some 0 /\ entry (files w) 7 = None.
Proof.
  exists (Disk (fun n => if n =? 7 then Some 0 else None) (fun _ => [1; 2; 3]) 1), [(0%nat, Calls LOCK); (0%nat, NoTemp 7); (0%nat, Proceeds); (0%nat, Returns)]. eexists. split; [split; [reflexivity|intros n i; cbn [entry spare]; destruct (n =? 7); [intros E; injection E as <-; lia|discriminate]]|]. split; [reflexivity|]. split; [|split; [intros [|u]; reflexivity|split; reflexivity]].
  split; [intros h1 h2 t E; destruct h1 as [|a [|b [|e h1]]]; discriminate E|intros t I; cbn in I; intuition discriminate].
Qed.
Print Assumptions C36_mkstemp_refuted.

Example lock_example_runs :
  option_map (fun w => (history w, lock_data (files w), map (entry (files w)) [0; 7; 8; 9], threads w 3%nat)) (run pid_example (start empty_disk) lock_example) =
  Some ([(0%nat, Called LOCK); (0%nat, Returned LOCK 0); (1%nat, Called LOCK); (1%nat, Returned LOCK (-1)); (2%nat, Called CHECK); (3%nat, Called LOCK); (2%nat, Returned CHECK 100); (0%nat, Called UNLOCK); (0%nat, Returned UNLOCK 0);
         (1%nat, Called PRELOCK); (1%nat, Returned PRELOCK 0); (1%nat, Called POSTLOCK); (1%nat, Returned POSTLOCK 0)], Some [49; 48; 49; 10], [Some 4; None; None; Some 2], Dead).
Proof. vm_compute. reflexivity. Qed.
Example lock_example_unlocked : unlocked empty_disk /\ forall u, 0 < pid_example u < 2147483648.
Proof. split; [split; [reflexivity|discriminate]|]. intros u. unfold pid_example. pose proof (Z.mod_pos_bound (Z.of_nat u) 900). lia. Qed.
Example lock_example_lucky : lucky pid_example (start empty_disk) lock_example.
Proof. apply (luckyb_lucky 4); [reflexivity|]. vm_compute. reflexivity. Qed.
(** What happens in it is well behaved and proper, and thread 1 holds the lock. *)
Example lock_example_behaved : option_map history (run pid_example (start empty_disk) lock_example) <> None /\
  forall w, run pid_example (start empty_disk) lock_example = Some w -> well_behaved (history w) /\ proper (history w) /\ holds (history w) 1 /\ postlocked (history w) 1.
Proof.
  pose proof lock_example_runs as R. destruct (run pid_example (start empty_disk) lock_example) as [w|]; [|discriminate R]. split; [discriminate|]. intros w' E. assert (W : w' = w) by congruence. subst w'. clear E.
  cbn [option_map] in R. apply (f_equal (fun x => match x with Some (h, _, _, _) => h | None => [] end)) in R. cbn beta iota in R. rewrite R. clear R. split; [split|split; [|split]].
  - intros h1 h2 t E. apply split_at in E as (N & ->). revert N. generalize (length h1) as k. intros k N. destruct k as [|[|[|[|[|[|[|[|[|[|[|[|[|k]]]]]]]]]]]]]; try discriminate N; [|destruct k; discriminate N].
    injection N as <-. exists LOCK. split; [auto|]. exists [(0%nat, Called LOCK)]. eexists. split; [reflexivity|]. cbn. intuition discriminate.
  - intros t I. cbn in I. intuition discriminate.
  - intros h1 h2 t E. apply split_at in E as (N & ->). revert N. generalize (length h1) as k. intros k N. destruct k as [|[|[|[|[|[|[|[|[|[|[|[|[|k]]]]]]]]]]]]]; try discriminate N; [|destruct k; discriminate N].
    injection N as <-. exists PRELOCK. split; [auto|]. exists [(0%nat, Called LOCK); (0%nat, Returned LOCK 0); (1%nat, Called LOCK); (1%nat, Returned LOCK (-1)); (2%nat, Called CHECK); (3%nat, Called LOCK); (2%nat, Returned CHECK 100); (0%nat, Called UNLOCK); (0%nat, Returned UNLOCK 0); (1%nat, Called PRELOCK)], []. split; [reflexivity|]. intros [].
  - exists PRELOCK. split; [auto|]. eexists [(0%nat, Called LOCK); (0%nat, Returned LOCK 0); (1%nat, Called LOCK); (1%nat, Returned LOCK (-1)); (2%nat, Called CHECK); (3%nat, Called LOCK); (2%nat, Returned CHECK 100); (0%nat, Called UNLOCK); (0%nat, Returned UNLOCK 0); (1%nat, Called PRELOCK)], _. split; [reflexivity|]. cbn. intuition discriminate.
  - exists [(0%nat, Called LOCK); (0%nat, Returned LOCK 0); (1%nat, Called LOCK); (1%nat, Returned LOCK (-1)); (2%nat, Called CHECK); (3%nat, Called LOCK); (2%nat, Returned CHECK 100); (0%nat, Called UNLOCK); (0%nat, Returned UNLOCK 0); (1%nat, Called PRELOCK); (1%nat, Returned PRELOCK 0); (1%nat, Called POSTLOCK)], []. split; [reflexivity|]. intros [].
Qed.
