(** Property C91: aborts, end of file, frames that do not fit and frames without data. *)

From Coq Require Import ZArith List Bool Lia.
From Verif Require Import CInt ChecksumModel ChecksumSpec FramerModel FramerSpec
  FramerProofs FramerProofs2 FramerProofs3 FramerProofs4 FramerendSpec FramerendProofs.
Import ListNotations.
Local Open Scope Z_scope.

Local Ltac vms :=
  repeat match goal with |- _ /\ _ => split; [vm_compute; reflexivity|] end;
  vm_compute; reflexivity.

(** The receiver of the examples: five octets of buffer, one frame received. *)
Definition ex_end_ops : list op :=
  map (fun c => OToken (Some c))
    (match writer 65535 [0x7e; 5] with Some (w, _) => w | None => [] end) ++ [OReset].
Definition ex_end : framer :=
  match run (init [9; 9; 9; 9; 9; 9] 5) ex_end_ops with Some f => f | None => initializer end.
Example C91_example_receiver : reachable ex_end /\ isterminal ex_end = false /\ escape_pending ex_end = false /\
  size ex_end = 5 /\ sequence ex_end = 0 /\ total ex_end < 4611686018427387904.
Proof.
  split; [|vm_compute; auto 10]. exists [9; 9; 9; 9; 9; 9], 5, ex_end_ops.
  split; [vm_compute; split; discriminate|]. split; [|vm_compute; reflexivity].
  vm_compute. repeat constructor; discriminate.
Qed.

(** The abort is an escape and a flag. *)
Theorem C91_abort_octets : abort = [0x7d; 0x7e].
Proof. reflexivity. Qed.
Print Assumptions C91_abort_octets.

(** A sender that gives up a frame at any octet before its last, aborts, and sends another
    frame: the receiver delivers the second, and it is the first that it receives since the
    one before the abandoned frame. *)
Theorem C91_abandoned : forall f gen payload wire gen' n wire2 payload2 seq2 rest,
  reachable f -> isterminal f = false -> total f < 4611686018427387904 ->
  octets payload -> writer gen payload = Some (wire, gen') -> (n < length wire)%nat ->
  valid_frame wire2 payload2 seq2 -> 0 < Z.of_nat (length payload2) <= size f ->
  exists f', reader f (tokens (firstn n wire ++ abort ++ wire2) ++ rest) = Some (f', total f', rest) /\ total f' > 0 /\
    iscomplete f' = true /\ getlength f' = Z.of_nat (length payload2) /\
    firstn (length payload2) (buffer f') = payload2 /\ sequence f' = seq2 /\ previous f' = sequence f.
Proof. exact abandoned. Qed.
Print Assumptions C91_abandoned.

(** The abort itself takes nothing and leaves the reader ready, whatever came before it. *)
Theorem C91_abort : forall f, reachable f -> isterminal f = false ->
  exists f', reader f (tokens abort) = Some (f', 0, []) /\ isterminal f' = false /\ escape_pending f' = false /\
    undisturbed f f' /\ throttle f' = throttle f.
Proof.
  intros f R T. destruct (abort_reader f (reachable_inv f R) T) as (f' & E & _ & A & B & C & D & _).
  exists f'. specialize (E []). rewrite app_nil_r in E. split; [exact E|auto].
Qed.
Print Assumptions C91_abort.

(** To an application that runs the machine itself, an abort inside a frame is an error. *)
Theorem C91_abort_error : forall f, isterminal f = false -> st f <> RESET ->
  exists f', feed f (tokens abort) = Some f' /\ iserror f' = true /\ iscomplete f' = false /\ undisturbed f f'.
Proof.
  intros f T R. destruct (abort_machine f T R) as (f' & F & E & U). exists f'. split; [exact F|]. split; [exact E|]. split; [|exact U].
  unfold iserror in E. unfold iscomplete. destruct (st f'); congruence.
Qed.
Print Assumptions C91_abort_error.

Example C91_example : exists wire g wire2 g2 f' r,
  writer 0 [1; 0x7d; 3; 4] = Some (wire, g) /\ writer g [6; 7] = Some (wire2, g2) /\
  reader ex_end (tokens (firstn 9 wire ++ abort ++ wire2)) = Some (f', r, []) /\
  firstn 2 (buffer f') = [6; 7] /\ getmissing f' = 1.
Proof. do 6 eexists. vms. Qed.

(** Nothing more is taken after a completed frame, an error or the end of file, until a reset:
    in particular a datagram is not overwritten before the application is done with it. *)
Theorem C91_sticky : forall f l, isterminal f = true ->
  exists f', feed f (tokens l) = Some f' /\ st f' = st f /\ undisturbed f f'.
Proof. intros. apply terminal_sticky. assumption. Qed.
Print Assumptions C91_sticky.
Example C91_sticky_example : exists wire g f', writer 4 [6; 7] = Some (wire, g) /\
  feed ex_end (tokens wire) = Some f' /\ isterminal f' = true /\ iscomplete f' = true /\
  option_map (fun f => firstn 2 (buffer f)) (feed f' (tokens [0x7e; 0; 1; 2])) = Some [6; 7].
Proof. do 3 eexists. vms. Qed.

(** The end of file, in any state: the machine reports an error that is terminal, the reader
    returns EOF at once, and nothing is taken. *)
Theorem C91_end_of_file : forall f, exists f', machine f None = Some f' /\ undisturbed f f' /\
  iscomplete f' = false /\ iserror f' = true /\ isterminal f' = true /\
  (forall rest, reader f (None :: rest) = Some (f', -1, rest)).
Proof. exact end_of_file. Qed.
Print Assumptions C91_end_of_file.
Example C91_end_of_file_example : exists f', reader ex_end (tokens [0x7e; 0; 1] ++ [None; Some 3]) = Some (f', -1, [Some 3]).
Proof. eexists. vm_compute. reflexivity. Qed.

(** A frame that is larger than the buffer: the reader passes over it, taking nothing of it
    (neither data nor its number), and is ready for what follows; the machine by itself ends
    in an error. *)
Theorem C91_oversize : forall f wire payload seq, reachable f -> isterminal f = false -> escape_pending f = false ->
  valid_frame wire payload seq -> size f < Z.of_nat (length payload) ->
  (exists f', (forall rest, reader f (tokens wire ++ rest) = reader f' rest) /\ isterminal f' = false /\
     escape_pending f' = false /\ undisturbed f f') /\
  (exists f', feed f (tokens wire) = Some f' /\ st f' = OVERFLOW /\ iserror f' = true /\ undisturbed f f').
Proof.
  intros f wire payload seq A B C D E. destruct (oversize f wire payload seq A B C D E) as [X (f' & F & S1 & U)].
  split; [exact X|]. exists f'. split; [exact F|]. split; [exact S1|]. split; [unfold iserror; rewrite S1; reflexivity|exact U].
Qed.
Print Assumptions C91_oversize.
Example C91_oversize_example : exists wire g f', writer 4 [1; 2; 3; 4; 5; 6] = Some (wire, g) /\
  size ex_end < Z.of_nat (length [1; 2; 3; 4; 5; 6]) /\
  reader ex_end (tokens wire) = Some (f', 0, []) /\ buffer f' = [0x7e; 5; 0; 9; 9; 9].
Proof. do 3 eexists. vms. Qed.

(** A frame without data: the reader does not return for it, but takes its number. *)
Theorem C91_empty : forall f wire seq rest, reachable f -> isterminal f = false -> escape_pending f = false ->
  valid_frame wire [] seq ->
  exists f', reader f (tokens wire ++ rest) = reader f' rest /\ isterminal f' = false /\ sequence f' = seq /\ previous f' = sequence f.
Proof. exact empty_frame. Qed.
Print Assumptions C91_empty.
Example C91_empty_example : exists wire g f', writer 4 [] = Some (wire, g) /\
  reader ex_end (tokens wire) = Some (f', 0, []) /\ sequence f' = 5 /\ previous f' = 0.
Proof. do 3 eexists. vms. Qed.
