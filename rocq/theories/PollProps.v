From Coq Require Import ZArith List Bool Lia.
From Verif Require Import CInt CUtil MuxModel MuxSpec MuxProofs MuxProofs3 PollModel PollSpec PollProofs PollProofs2 PollProofs3.
Import ListNotations.
Local Open Scope Z_scope.

(** * C52: multiplexing with ppoll *)

(** Whatever a program registers, unregisters and closes, every call returns what it
    should, and every wait asks the system for exactly the descriptors registered at that
    moment, each once, and for exactly the events they are registered for; and returns
    what the system does. *)
Theorem C52_registration : forall mask ops g stale es p ss,
  p_run nothing false ops = Some (g, stale, es) -> poll_run (poll_init mask) ops = Some (p, ss) -> Forall2 p_agrees es ss.
Proof. intros mask ops g stale es p ss E1 E2. apply (prun_ok ops _ _ _ _ _ _ _ _ (pinv_init mask) E1 E2). Qed.
Print Assumptions C52_registration.

(** For a program that keeps partners apart no call touches anything outside the array or
    the sets, nor reads what was never written. *)
Theorem C52_defined : forall mask ops g stale es, p_disciplined ops -> p_run nothing false ops = Some (g, stale, es) -> exists p ss, poll_run (poll_init mask) ops = Some (p, ss).
Proof. intros mask ops g stale es D E. destruct (discipline_run mask ops g stale es D E) as (p & ss & R & _). eauto. Qed.
Print Assumptions C52_defined.

(** Of a program that takes nothing, that is so without any discipline. *)
Theorem C52_waits_defined : forall mask ops g stale es, p_run nothing false ops = Some (g, stale, es) -> (forall w, ~ In (PReady w) ops) -> exists p ss, poll_run (poll_init mask) ops = Some (p, ss).
Proof.
  intros mask ops g stale es E NR. pose proof (pinv_init mask) as V. revert E V. generalize nothing as g0, (poll_init mask) as p0, false as st0. revert es. induction ops as [|o ops IH]; intros es g0 p0 st0 E V; cbn [p_run poll_run] in *; [eauto|].
  destruct (p_step g0 st0 o) as [((g1, st1), e)|] eqn:ES; [|discriminate]. destruct (p_run g1 st1 ops) as [((g2, st2), es2)|] eqn:ER; [|discriminate]. injection E as <- <- <-.
  destruct (pstep_ok p0 g0 st0 o g1 st1 e V ES) as (p1 & s & EM & _ & V1 & _); [intros w ->; apply (NR w); left; reflexivity|]. rewrite EM. cbn [bind].
  destruct (IH (fun w I => NR w (or_intror I)) es2 g1 p1 st1 ER V1) as (p2 & ss & EN). rewrite EN. eexists _, _. reflexivity.
Qed.
Print Assumptions C52_waits_defined.

(** After a wait that reported something, the calls for the next ready descriptor return
    every descriptor that is registered and reported, in cyclic order, and then that there
    are no more. *)
Theorem C52_round : forall mask ops memory ppoll ticks g stale es p ss p1 s c w,
  p_disciplined (ops ++ [PWait memory ppoll ticks]) -> p_run nothing false (ops ++ [PWait memory ppoll ticks]) = Some (g, stale, es) ->
  poll_run (poll_init mask) ops = Some (p, ss) -> poll_step p (PWait memory ppoll ticks) = Some (p1, s) -> p_called s = Some c -> fst (ppoll c) > 0 ->
  exists q p2, 0 <= q <= 1023 /\
    poll_run p1 (repeat (PReady w) (S (length (p_served g w c (snd (ppoll c)) q)))) = Some (p2, p_results (p_served g w c (snd (ppoll c)) q ++ [-1])).
Proof. exact round_run. Qed.
Print Assumptions C52_round.

(** Each exactly once. *)
Theorem C52_once : forall g w c r q, 0 <= q <= 1024 -> NoDup (p_served g w c r q) /\ forall fd, 0 <= fd <= 1023 -> In fd (p_served g w c r q) <-> In fd (g w) /\ p_reported c r w fd = true.
Proof.
  intros g w c r q Q. unfold p_served. split; [apply NoDup_filter, cyclic_NoDup|]. intros fd F. rewrite filter_In, cyclic_In, andb_true_iff, mem_In by lia. tauto.
Qed.
Print Assumptions C52_once.

(** The round after begins after the descriptor that was returned last, whatever was
    waited for and taken for other purposes in between. *)
Theorem C52_resumes : forall mask before w ops memory ppoll ticks g stale es p0 ss0 p fd p2 ss p3 s c,
  p_disciplined (before ++ PReady w :: ops ++ [PWait memory ppoll ticks]) -> p_run nothing false (before ++ PReady w :: ops ++ [PWait memory ppoll ticks]) = Some (g, stale, es) ->
  poll_run (poll_init mask) before = Some (p0, ss0) -> poll_step p0 (PReady w) = Some (p, PSeen fd None) -> 0 <= fd ->
  Forall (p_leaves_alone w) ops -> poll_run p ops = Some (p2, ss) ->
  poll_step p2 (PWait memory ppoll ticks) = Some (p3, s) -> p_called s = Some c -> fst (ppoll c) > 0 ->
  exists p4, poll_run p3 (repeat (PReady w) (S (length (p_served g w c (snd (ppoll c)) (fd + 1))))) = Some (p4, p_results (p_served g w c (snd (ppoll c)) (fd + 1) ++ [-1])).
Proof. exact resumes_run. Qed.
Print Assumptions C52_resumes.

Definition C52_ops : list pop :=
  [PRegister READ 3; PRegister READ 5; PRegister WRITE 5; PRegister READ 9; PRegister ACCEPT 12; PRegister WRITE 1024; PWait true (p_reports [(3, POLLIN); (5, POLLIN); (9, POLLIN); (12, POLLIN)]) 10;
   PReady READ; PReady READ; PReady ACCEPT; PReady ACCEPT; PUnregister WRITE 5; PClose 7 0; PWait true (p_reports [(3, POLLIN); (5, Z.lor POLLIN POLLOUT); (9, POLLIN)]) 10; PReady READ; PReady READ; PReady READ; PReady READ; PReady WRITE].
Lemma p_reports_conforms l : forall c, p_conforms c (snd (p_reports l c)).
Proof.
  intros c. unfold p_reports, p_conforms. cbn [snd]. split; [apply map_length|]. intros fd e x I.
  assert (EX : x = if fd <? 0 then 0 else match find (fun '(f, _) => f =? fd) l with Some (_, x) => Z.land x (Z.lor e (Z.lor POLLERR (Z.lor POLLHUP POLLNVAL))) | None => 0 end).
  { induction c as [|(f, e0) c IH]; [destruct I|]. cbn [map combine] in I. destruct I as [I|I]; [|apply IH, I]. inversion I. reflexivity. }
  destruct (fd <? 0); [exact EX|]. intros k T. rewrite EX in T. destruct (find _ l) as [(f, y)|]; [|rewrite Z.bits_0 in T; discriminate]. rewrite Z.land_spec in T. apply andb_true_iff in T. apply T.
Qed.
Example C52_example : p_disciplined C52_ops /\ option_map (fun '(g, st, _) => (g READ, g WRITE, g ACCEPT, st)) (p_run nothing false C52_ops) = Some ([9; 5; 3], [], [12], false) /\
  option_map (fun '(_, ss) => map p_result ss) (poll_run (poll_init 0) C52_ops) = Some [3; 5; 5; 9; 12; -1; 4; 3; 5; 12; -1; 5; -2; 3; 9; 3; 5; -1; -1] /\
  option_map (fun '(_, ss) => flat_map (fun s => match p_called s with Some c => [filter (fun '(fd, _) => 0 <=? fd) c] | None => [] end) ss) (poll_run (poll_init 0) C52_ops) =
    Some [[(3, POLLIN); (5, Z.lor POLLIN POLLOUT); (9, POLLIN); (12, POLLIN)]; [(3, POLLIN); (5, POLLIN); (9, POLLIN); (12, POLLIN)]].
Proof.
  split; [|split; [vm_compute; reflexivity|split; vm_compute; reflexivity]]. split.
  - intros w v lo fd hi P I1 I2 I3. cbn in I1, I2, I3. destruct w; try discriminate P; injection P as <-; repeat (destruct I3 as [I3|I3]; [try discriminate I3; injection I3 as <-|]); try destruct I3; repeat (destruct I1 as [I1|I1]; [try discriminate I1; injection I1 as <-|]); try destruct I1; repeat (destruct I2 as [I2|I2]; [try discriminate I2; injection I2 as <-|]); try destruct I2; lia.
  - intros a b t I. cbn in I. repeat (destruct I as [I|I]; [try discriminate I; injection I as _ <- _; apply p_reports_conforms|]). contradiction.
Qed.

(** * What is not so *)

(** Closing a registered descriptor does not make the next wait forget it, though nothing
    is registered any more there. What is reported for it is then taken for what is
    reported for another: here 3 is closed, reported by the system, and 5 returned, which
    the system was not even asked about. *)
Theorem C52_close_refuted : exists ops p ss, ops = [PRegister READ 3; PRegister READ 5; PWait true (p_reports []) 10; PClose 3 0; PWait true (p_reports [(3, POLLIN)]) 10; PReady READ] /\
  poll_run (poll_init 0) ops = Some (p, ss) /\
  map p_result ss = [3; 5; 0; 0; 1; 5] /\ map p_called ss = [None; None; Some [(3, POLLIN); (-1, 0); (5, POLLIN)]; None; Some [(3, POLLIN)]; None] /\
  p_disciplined ops.
Proof.
  set (o := [PRegister READ 3; PRegister READ 5; PWait true (p_reports []) 10; PClose 3 0; PWait true (p_reports [(3, POLLIN)]) 10; PReady READ]).
  assert (E : option_map (fun '(p, ss) => (map p_result ss, map p_called ss)) (poll_run (poll_init 0) o) = Some ([3; 5; 0; 0; 1; 5], [None; None; Some [(3, POLLIN); (-1, 0); (5, POLLIN)]; None; Some [(3, POLLIN)]; None])) by (vm_compute; reflexivity).
  destruct (poll_run (poll_init 0) o) as [(p, ss)|] eqn:R; [|discriminate]. cbn [option_map] in E. assert (E1 := f_equal (fun o => match o with Some (x, _) => x | None => [] end) E). assert (E2 := f_equal (fun o => match o with Some (_, x) => x | None => [] end) E). cbv beta iota in E1, E2.
  exists o, p, ss. split; [reflexivity|]. split; [exact R|]. split; [exact E1|]. split; [exact E2|]. split.
  - intros w v lo fd hi P I1 I2 I3. unfold o in I1, I2, I3. cbn in I1, I2, I3. destruct w; try discriminate P; injection P as <-; repeat (destruct I3 as [I3|I3]; [try discriminate I3; injection I3 as <-|]); try destruct I3; repeat (destruct I1 as [I1|I1]; [try discriminate I1; injection I1 as <-|]); try destruct I1; repeat (destruct I2 as [I2|I2]; [try discriminate I2; injection I2 as <-|]); try destruct I2.
  - intros a b t I. unfold o in I. cbn in I. repeat (destruct I as [I|I]; [try discriminate I; injection I as _ <- _; apply p_reports_conforms|]). contradiction.
Qed.
Print Assumptions C52_close_refuted.

(** A hang-up, or an error, without anything to read is reported by the system, and by the
    wait, but for no purpose: no call returns the descriptor, and the next wait returns at
    once again. (pselect reports both as ready to read.) *)
Theorem C52_hangup_refuted : exists ops p ss, ops = [PRegister READ 3; PRegister WRITE 4; PWait true (p_reports [(3, POLLHUP); (4, POLLERR)]) 10; PReady READ; PReady WRITE; PReady ACCEPT; PReady URGENT; PReady INTERRUPT; PWait true (p_reports [(3, POLLHUP); (4, POLLERR)]) 10] /\
  poll_run (poll_init 0) ops = Some (p, ss) /\ map p_result ss = [3; 4; 2; -1; -1; -1; -1; -1; 2].
Proof.
  set (o := [PRegister READ 3; PRegister WRITE 4; PWait true (p_reports [(3, POLLHUP); (4, POLLERR)]) 10; PReady READ; PReady WRITE; PReady ACCEPT; PReady URGENT; PReady INTERRUPT; PWait true (p_reports [(3, POLLHUP); (4, POLLERR)]) 10]).
  assert (E : option_map (fun '(p, ss) => map p_result ss) (poll_run (poll_init 0) o) = Some [3; 4; 2; -1; -1; -1; -1; -1; 2]) by (vm_compute; reflexivity).
  destruct (poll_run (poll_init 0) o) as [(p, ss)|] eqn:R; [|discriminate]. cbn [option_map] in E. injection E as E. exists o, p, ss. split; [reflexivity|]. split; [exact R|exact E].
Qed.
Print Assumptions C52_hangup_refuted.

(** A descriptor registered for accepting, between two registered for reading, makes the
    call for the next one to read write outside the set: it clears bit -1. *)
Theorem C52_accept_refuted : exists ops p ss, ops = [PRegister READ 3; PRegister READ 5; PRegister ACCEPT 4; PWait true (p_reports [(4, POLLIN)]) 10] /\ poll_run (poll_init 0) ops = Some (p, ss) /\
  p_result (last ss (PSeen 0 None)) = 1 /\ poll_step p (PReady READ) = None.
Proof.
  set (o := [PRegister READ 3; PRegister READ 5; PRegister ACCEPT 4; PWait true (p_reports [(4, POLLIN)]) 10]).
  assert (E : option_map (fun '(p, ss) => (p_result (last ss (PSeen 0 None)), match poll_step p (PReady READ) with None => true | Some _ => false end)) (poll_run (poll_init 0) o) = Some (1, true)) by (vm_compute; reflexivity).
  destruct (poll_run (poll_init 0) o) as [(p, ss)|] eqn:R; [|discriminate]. cbn [option_map] in E. assert (E1 := f_equal (fun o => match o with Some (x, _) => x | None => 0 end) E). assert (E2 := f_equal (fun o => match o with Some (_, x) => x | None => false end) E). cbv beta iota in E1, E2.
  exists o, p, ss. split; [reflexivity|]. split; [exact R|]. split; [exact E1|]. clear E E1. destruct (poll_step p (PReady READ)); [discriminate E2|reflexivity].
Qed.
Print Assumptions C52_accept_refuted.

(** If there is no memory for a greater array the wait writes through the null pointer. *)
Theorem C52_memory_refuted : forall mask w fd ppoll ticks, 0 <= fd < 1024 -> poll_run (poll_init mask) [PRegister w fd; PWait false ppoll ticks] = None.
Proof.
  intros mask w fd ppoll ticks F. cbn [poll_run poll_step]. unfold poll_register.
  destruct (register_raw (p_mux (poll_init mask)) nothing w fd) as (m & rc & E & C & _); [intros v; exact sinv_init|]. rewrite E. cbn [bind].
  destruct C as [(-> & _ & _ & S)|(_ & _ & C)]; [|destruct (Z.leb_spec 0 fd), (Z.ltb_spec fd 1024); try lia; discriminate C].
  assert (K : known (update nothing w (fd :: nothing w)) fd) by (exists w; unfold update; rewrite which_eqb_refl; left; reflexivity).
  destruct (bounds_ok m _ S) as [(N & _)|(_ & _ & B & B2 & _)]; [destruct (N fd K)|].
  unfold poll_wait. cbn [p_mux slots]. fold (bounds_of m). rewrite (surjective_pairing (bounds_of m)). destruct (Z.leb_spec (fst (bounds_of m)) (snd (bounds_of m))); [|lia]. rewrite Z.gtb_ltb. cbn [poll_init slots length]. destruct (Z.ltb_spec (Z.of_nat 0) (snd (bounds_of m) - fst (bounds_of m) + 1)); [|lia]. reflexivity.
Qed.
Print Assumptions C52_memory_refuted.
Example C52_memory_meets : 0 <= 3 < 1024. Proof. lia. Qed.

(** A wait for ever, with nothing registered, does not wait, not even for a signal. *)
Theorem C52_forever_refuted : forall mask memory ppoll ticks, ticks < 0 -> exists p, poll_run (poll_init mask) [PWait memory ppoll ticks] = Some (p, [PSeen 0 None]).
Proof.
  intros mask memory ppoll ticks T. cbn [poll_run poll_step]. unfold poll_wait. cbn -[Z.geb]. rewrite Z.geb_leb. destruct (Z.leb_spec 0 ticks); [lia|]. eexists. reflexivity.
Qed.
Print Assumptions C52_forever_refuted.
