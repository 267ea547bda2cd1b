From Coq Require Import ZArith List Bool Lia.
From Verif Require Import CInt CUtil MuxModel MuxSpec MuxProofs MuxProofs2 MuxProofs3 MuxProofs4 MuxProofs5.
Import ListNotations.
Local Open Scope Z_scope.

(** * C33: registration *)

(** Whatever a program registers, unregisters and closes, every call returns what it
    should, and every wait asks the system for exactly the descriptors registered at that
    moment, for the purposes they are registered for. *)
Theorem C33_registration : forall mask ops g es m ss,
  r_run nothing ops = Some (g, es) -> mux_run (mux_init mask) ops = Some (m, ss) ->
  Forall2 agrees es ss /\ forall w, bounded (sets m w) (g w).
Proof.
  intros mask ops g es m ss E1 E2. destruct (run_ok ops _ _ _ _ _ _ (minv_init mask) E1 E2) as (F & V). split; [exact F|]. intros w. apply sinv_bounded, V.
Qed.
Print Assumptions C33_registration.

(** None of these calls is ever undefined. *)
Theorem C33_defined : forall mask ops g es, r_run nothing ops = Some (g, es) -> (forall w, ~ In (Ready w) ops) -> exists m ss, mux_run (mux_init mask) ops = Some (m, ss).
Proof.
  intros mask ops g es E NR. pose proof (minv_init mask) as V. revert E V. generalize nothing as g0, (mux_init mask) as m0. revert es. induction ops as [|o ops IH]; intros es g0 m0 E V; cbn [r_run mux_run] in *; [eauto|].
  destruct (r_step g0 o) as [(g1, e)|] eqn:ES; [|discriminate]. destruct (r_run g1 ops) as [(g2, es2)|] eqn:ER; [|discriminate]. injection E as <- <-.
  destruct (step_ok m0 g0 o g1 e V ES) as (m1 & s & EM & _ & V1); [intros w ->; apply (NR w); left; reflexivity|]. rewrite EM. cbn [bind].
  destruct (IH (fun w I => NR w (or_intror I)) es2 g1 m1 ER V1) as (m2 & ss & EN). rewrite EN. eexists _, _. reflexivity.
Qed.
Print Assumptions C33_defined.

Definition C33_ops : list mop :=
  [Register READ 3; Register READ 1000; Register ACCEPT 7; Register WRITE 3; Register READ 3; Register READ 1024; Register URGENT 0; Wait (reports []) 10; Unregister READ 1000; Wait (reports []) 10; Close 3 0; Close 3 0; Unregister READ 3; Wait (reports []) 10].
Example C33_example :
  option_map (fun '(g, _) => (g READ, g WRITE, g ACCEPT, g URGENT)) (r_run nothing C33_ops) = Some ([], [], [7], [0]) /\
  option_map (fun '(_, ss) => map result ss) (mux_run (mux_init 0) C33_ops) = Some [3; 1000; 7; 3; -1; -1; 0; 0; 1000; 0; 0; -2; -1; 0] /\
  option_map (fun '(_, ss) => flat_map (fun s => match called s with Some c => [c] | None => [] end) ss) (mux_run (mux_init 0) C33_ops) =
    Some [Call 1001 (bits [3; 7; 1000]) (bits [3]) (bits [0]); Call 8 (bits [3; 7]) (bits [3]) (bits [0]); Call 8 (bits [7]) 0 (bits [0])].
Proof. split; [vm_compute; reflexivity|]. split; vm_compute; reflexivity. Qed.

(** Unregistering a descriptor for reading, that is also registered for accepting, stops
    the waits for it: the program that does this is what [r_run] leaves out. *)
Theorem C33_shared_refuted : exists ops m ss c, mux_run (mux_init 0) ops = Some (m, ss) /\ last ss (Seen 0 None) = Seen 0 (Some c) /\
  ops = [Register READ 3; Register ACCEPT 3; Unregister READ 3; Wait (reports []) 10] /\ Z.testbit (active (sets m ACCEPT)) 3 = true /\ Z.testbit (c_read c) 3 = false.
Proof.
  set (o := [Register READ 3; Register ACCEPT 3; Unregister READ 3; Wait (reports []) 10]).
  assert (E : option_map (fun '(m, ss) => (last ss (Seen 0 None), Z.testbit (active (sets m ACCEPT)) 3)) (mux_run (mux_init 0) o) = Some (Seen 0 (Some (Call 4 0 0 0)), true)) by (vm_compute; reflexivity).
  destruct (mux_run (mux_init 0) o) as [(m, ss)|] eqn:R; [|discriminate]. cbn [option_map] in E. injection E as E1 E2. exists o, m, ss, (Call 4 0 0 0). split; [exact R|]. split; [exact E1|]. split; [reflexivity|]. split; [exact E2|reflexivity].
Qed.
Print Assumptions C33_shared_refuted.

(** The header says that close does not close a descriptor that is not registered. It
    does: the result depends on what close(2) returned even then. *)
Theorem C33_close_refuted : forall mask ops g es m ss fd, r_run nothing ops = Some (g, es) -> mux_run (mux_init mask) ops = Some (m, ss) -> (forall w, ~ In fd (g w)) ->
  exists m0 m1, mux_close m fd 0 = Some (m0, -2) /\ mux_close m fd (-1) = Some (m1, -1).
Proof.
  intros mask ops g es m ss fd E1 E2 N. destruct (run_ok ops _ _ _ _ _ _ (minv_init mask) E1 E2) as (_ & V). destruct (close_ok m g fd 0 V) as (m0 & r0 & F0 & R0 & _). destruct (close_ok m g fd (-1) V) as (m1 & r1 & F1 & R1 & _). exists m0, m1. rewrite F0, F1, R0, R1. cbn [existsb]. rewrite !(proj2 (mem_not fd _) (N _)). split; reflexivity.
Qed.
Print Assumptions C33_close_refuted.

(** * C34: round robin *)

(** After a wait that reported something, the calls for the next ready descriptor
    return every descriptor that is registered and reported, once each, in cyclic order,
    and then that there are no more. *)
Theorem C34_round : forall mask ops g es m ss pselect ticks m1 s c w,
  r_run nothing ops = Some (g, es) -> mux_run (mux_init mask) ops = Some (m, ss) ->
  mux_step m (Wait pselect ticks) = Some (m1, s) -> called s = Some c -> a_rc (pselect c) > 0 -> apart g w (pselect c) ->
  exists p m2, 0 <= p <= 1023 /\
    mux_run m1 (repeat (Ready w) (S (length (served g w (pselect c) p)))) = Some (m2, results (served g w (pselect c) p ++ [-1])).
Proof.
  intros mask ops g es m ss pselect ticks m1 s c w E1 E2 EW C RC AP. destruct (run_ok ops _ _ _ _ _ _ (minv_init mask) E1 E2) as (_ & V). eapply round_ok; eassumption.
Qed.
Print Assumptions C34_round.

(** Each exactly once. *)
Theorem C34_once : forall g w a p, 0 <= p <= 1023 -> NoDup (served g w a p) /\ forall fd, 0 <= fd <= 1023 -> In fd (served g w a p) <-> In fd (g w) /\ Z.testbit (reported a w) fd = true.
Proof.
  intros g w a p P. unfold served. split; [apply NoDup_filter, cyclic_NoDup|]. intros fd F. rewrite filter_In, cyclic_In, andb_true_iff, mem_In by lia. tauto.
Qed.
Print Assumptions C34_once.

(** The round after begins after the descriptor that was returned last, whatever was
    waited for and taken for other purposes in between. *)
Theorem C34_resumes : forall mask before g es m0 ss0 w m fd ops m2 ss pselect ticks m3 s c,
  r_run nothing before = Some (g, es) -> mux_run (mux_init mask) before = Some (m0, ss0) ->
  mux_step m0 (Ready w) = Some (m, Seen fd None) -> 0 <= fd ->
  Forall (leaves_alone w) ops -> mux_run m ops = Some (m2, ss) ->
  mux_step m2 (Wait pselect ticks) = Some (m3, s) -> called s = Some c -> a_rc (pselect c) > 0 -> apart g w (pselect c) ->
  exists m4, mux_run m3 (repeat (Ready w) (S (length (served g w (pselect c) (fd + 1))))) = Some (m4, results (served g w (pselect c) (fd + 1) ++ [-1])).
Proof.
  intros mask before g es m0 ss0 w m fd ops m2 ss pselect ticks m3 s c E1 E2. destruct (run_ok before _ _ _ _ _ _ (minv_init mask) E1 E2) as (_ & V). intros. eapply resumes_ok; eassumption.
Qed.
Print Assumptions C34_resumes.

(** A descriptor that every wait reports is returned by the time as many were taken as
    there are registered, however the waits and the takes are interleaved. *)
Theorem C34_no_starvation : forall mask before g es m0 ss0 w fd pselect ticks h m ss,
  r_run nothing before = Some (g, es) -> mux_run (mux_init mask) before = Some (m0, ss0) -> In fd (g w) ->
  Forall (keeps_reporting g w fd) (Wait pselect ticks :: h) -> mux_run m0 (Wait pselect ticks :: h) = Some (m, ss) ->
  (length (g w) <= length (filter (takes w) h))%nat ->
  In fd (taken w (Wait pselect ticks :: h) ss).
Proof.
  intros mask before g es m0 ss0 w fd pselect ticks h m ss E1 E2. destruct (run_ok before _ _ _ _ _ _ (minv_init mask) E1 E2) as (_ & V). intros. eapply starve_ok; eassumption.
Qed.
Print Assumptions C34_no_starvation.

(** For a program that keeps partners apart, no call touches a bit outside a set. *)
Theorem C34_defined : forall mask ops, disciplined ops -> exists m ss g es, mux_run (mux_init mask) ops = Some (m, ss) /\ r_run nothing ops = Some (g, es).
Proof. exact disciplined_ok. Qed.
Print Assumptions C34_defined.

Definition C34_ops : list mop :=
  [Register READ 3; Register READ 5; Register READ 9; Register ACCEPT 12; Wait (reports [3; 5; 9; 12]) 10; Ready READ; Ready READ; Ready ACCEPT; Ready ACCEPT; Wait (reports [3; 5; 9]) 10; Ready READ; Ready READ; Ready READ; Ready READ].
Example C34_example : option_map (fun '(_, ss) => map result ss) (mux_run (mux_init 0) C34_ops) = Some [3; 5; 9; 12; 4; 3; 5; 12; -1; 3; 9; 3; 5; -1] /\ disciplined C34_ops /\
  served (fun _ => [9; 5; 3]) READ (reports [3; 5; 9; 12] (Call 13 (bits [3; 5; 9; 12]) 0 0)) 6 = [9; 3; 5] /\
  apart (fun _ => [9; 5; 3]) READ (reports [3; 5; 9; 12] (Call 13 (bits [3; 5; 9; 12]) 0 0)).
Proof.
  split; [vm_compute; reflexivity|]. split; [|split; [vm_compute; reflexivity|]].
  - split.
    + intros w v lo fd hi P I1 I2 I3. cbn in I1, I2, I3. destruct w; try discriminate P; injection P as <-; repeat (destruct I3 as [I3|I3]; [try discriminate; injection I3 as <-|]); try contradiction; repeat (destruct I1 as [I1|I1]; [try discriminate; injection I1 as <-|]); try contradiction; repeat (destruct I2 as [I2|I2]; [try discriminate; injection I2 as <-|]); try contradiction; lia.
    + assert (R : forall l c, conforms c (reports l c)) by (intros l c; unfold conforms, subset, reports; cbn; repeat split; intros fd T; rewrite Z.land_spec in T; apply andb_true_iff in T; tauto).
      intros p t I c. cbn in I. repeat (destruct I as [I|I]; [try discriminate; injection I as <- <-; apply R|]). contradiction.
  - intros lo fd hi I1 I2 B T. cbn [In] in *. assert (fd <= 9) by lia. assert (3 <= fd) by lia. assert (fd = 3 \/ fd = 4 \/ fd = 5 \/ fd = 6 \/ fd = 7 \/ fd = 8 \/ fd = 9) as C by lia. destruct C as [->|[->|[->|[->|[->|[->| -> ]]]]]]; try (vm_compute in T; discriminate); auto.
Qed.

(** A descriptor registered for accepting, between two registered for reading, makes the
    call for the next one to read write outside the set: it clears bit -1. *)
Theorem C34_accept_refuted : exists ops m ss, ops = [Register READ 3; Register READ 5; Register ACCEPT 4; Wait (reports [4]) 10] /\ mux_run (mux_init 0) ops = Some (m, ss) /\
  last ss (Seen 0 None) = Seen 1 (Some (Call 6 (bits [3; 4; 5]) 0 0)) /\ mux_step m (Ready READ) = None.
Proof.
  set (o := [Register READ 3; Register READ 5; Register ACCEPT 4; Wait (reports [4]) 10]).
  assert (E : option_map (fun '(m, ss) => (last ss (Seen 0 None), match mux_step m (Ready READ) with None => true | Some _ => false end)) (mux_run (mux_init 0) o) = Some (Seen 1 (Some (Call 6 (bits [3; 4; 5]) 0 0)), true)) by (vm_compute; reflexivity).
  destruct (mux_run (mux_init 0) o) as [(m, ss)|] eqn:R; [|discriminate]. cbn [option_map] in E. assert (E1 := f_equal (fun o => match o with Some (x, _) => x | None => Seen 0 None end) E). assert (E2 := f_equal (fun o => match o with Some (_, x) => x | None => false end) E). cbv beta iota in E1, E2.
  exists o, m, ss. split; [reflexivity|]. split; [exact R|]. split; [exact E1|]. clear E E1. destruct (mux_step m (Ready READ)); [discriminate E2|reflexivity].
Qed.
Print Assumptions C34_accept_refuted.

(** After a wait that failed, or was interrupted, the call for the next one to write can
    return a descriptor that was never reported ready. *)
Theorem C34_interrupted_write_refuted : exists ops m ss, ops = [Register WRITE 3; Register WRITE 5; Wait (reports [3]) 10; Ready WRITE; Wait fails 10; Ready WRITE] /\ mux_run (mux_init 0) ops = Some (m, ss) /\
  map result ss = [3; 5; 1; 3; -1; 5] /\ ~ ever_reported WRITE 5 ops.
Proof.
  set (o := [Register WRITE 3; Register WRITE 5; Wait (reports [3]) 10; Ready WRITE; Wait fails 10; Ready WRITE]).
  assert (E : option_map (fun '(m, ss) => map result ss) (mux_run (mux_init 0) o) = Some [3; 5; 1; 3; -1; 5]) by (vm_compute; reflexivity).
  destruct (mux_run (mux_init 0) o) as [(m, ss)|] eqn:R; [|discriminate]. cbn [option_map] in E. injection E as E1. exists o, m, ss. split; [reflexivity|]. split; [exact R|]. split; [exact E1|]. clear R E1.
  intros (p & t & c & I & RC & T). unfold o in I. cbn [In] in I. destruct I as [I|[I|[I|[I|[I|[I|[]]]]]]]; try discriminate I; injection I as <- <-; [|unfold fails in RC; cbn [a_rc] in RC; lia].
  unfold reports in T. cbn [reported a_write] in T. rewrite Z.land_spec in T. discriminate T.
Qed.
Print Assumptions C34_interrupted_write_refuted.
