(** Properties C01 to C07. *)

From Coq Require Import ZArith List Bool Lia.
From Verif Require Import CInt ChecksumModel ChecksumSpec FramerModel FramerSpec
  FramerProofs FramerProofs2 FramerProofs3 FramerProofs4.
Import ListNotations.
Local Open Scope Z_scope.

Local Ltac vms :=
  repeat match goal with |- _ /\ _ => split; [vm_compute; reflexivity|] end;
  vm_compute; reflexivity.

(** A receiver used by the examples: a ten octet buffer, noise, one frame
    received, and a reset. *)
Definition ex_ops : list op :=
  map (fun c => OToken (Some c)) [1; 0x7e; 0x7d; 0x7e; 0x13] ++ [OReset] ++
  map (fun c => OToken (Some c))
    (match writer 65535 [0x7e; 5] with Some (w, _) => w | None => [] end) ++ [OReset].
Definition ex_receiver : framer :=
  match run (init (repeat 255 12) 10) ex_ops with Some f => f | None => initializer end.
Example ex_receiver_reachable :
  reachable ex_receiver /\ st ex_receiver = RESET /\ sequence ex_receiver = 0 /\
  size ex_receiver = 10 /\ buffer ex_receiver = [0x7e; 5; 0] ++ repeat 255 9.
Proof.
  split; [|vm_compute; auto]. exists (repeat 255 12), 10, ex_ops.
  split; [vm_compute; split; discriminate|]. split; [|vm_compute; reflexivity].
  vm_compute. repeat constructor; discriminate.
Qed.

(** C01: whatever happened to the receiver before it was reset, the octets the
    writer produces for a datagram that fits make it complete on the last octet
    and on no earlier one, holding the datagram, its length, the sequence number
    of the sender, and the number of octets on the wire. *)
Theorem C01_round_trip : forall f gen payload wire gen',
  reachable f -> st f = RESET ->
  octets payload -> Z.of_nat (length payload) <= size f ->
  writer gen payload = Some (wire, gen') ->
  (exists f', feed f (tokens wire) = Some f' /\
     iscomplete f' = true /\
     getlength f' = Z.of_nat (length payload) /\
     firstn (length payload) (buffer f') = payload /\
     sequence f' = gen' /\ previous f' = sequence f /\ total f' = Z.of_nat (length wire)) /\
  (forall n f', (n < length wire)%nat -> feed f (tokens (firstn n wire)) = Some f' ->
     iscomplete f' = false /\ iserror f' = false) /\
  gen' = (gen + 1) mod 65536.
Proof. exact round_trip. Qed.
Print Assumptions C01_round_trip.

(** The writer accepts exactly the datagrams of at most 65535 octets. *)
Theorem C01_writer_total : forall gen payload,
  (exists wire gen', writer gen payload = Some (wire, gen')) <-> Z.of_nat (length payload) <= 65535.
Proof. exact writer_total. Qed.
Print Assumptions C01_writer_total.

(** The frame format: what the writer produces is a valid frame, and every
    valid frame (including those with needless escapes) is received. *)
Theorem C01_writer_format : forall gen payload wire gen',
  octets payload -> writer gen payload = Some (wire, gen') -> valid_frame wire payload gen'.
Proof. intros. exact (proj1 (writer_valid gen payload wire gen' H H0)). Qed.
Print Assumptions C01_writer_format.

Theorem C01_valid_frame_received : forall f wire payload seq,
  reachable f -> st f = RESET -> valid_frame wire payload seq ->
  Z.of_nat (length payload) <= size f ->
  exists f', feed f (tokens wire) = Some f' /\ iscomplete f' = true /\
    getlength f' = Z.of_nat (length payload) /\
    firstn (length payload) (buffer f') = payload /\ sequence f' = seq.
Proof. exact valid_frame_received. Qed.
Print Assumptions C01_valid_frame_received.

(** The terminator: a datagram shorter than the buffer is followed by a NUL. *)
Theorem C01_terminated : forall f wire payload seq f',
  reachable f -> st f = RESET -> valid_frame wire payload seq ->
  Z.of_nat (length payload) < size f -> feed f (tokens wire) = Some f' ->
  nth (length payload) (buffer f') 1 = 0.
Proof. exact frame_terminated. Qed.
Print Assumptions C01_terminated.

Example C01_example :
  writer 65535 [0x7d; 0; 0x11; 0x0a; 200] =
  Some ([126; 0; 5; 0; 0; 5; 15; 125; 93; 0; 125; 49; 125; 42; 200; 32; 39; 90; 10], 0).
Proof. vm_compute. reflexivity. Qed.
Example C01_example_hypotheses :
  reachable ex_receiver /\ st ex_receiver = RESET /\ octets [0x7d; 0; 0x11; 0x0a; 200] /\
  Z.of_nat (length [0x7d; 0; 0x11; 0x0a; 200]) <= size ex_receiver.
Proof.
  destruct ex_receiver_reachable as (R & S & _ & Z & _).
  split; [exact R|]. split; [exact S|]. split; [repeat constructor; unfold is_u8; lia|].
  rewrite Z. cbn. lia.
Qed.

(** C02: between the first octet and the last, an emitted frame contains no
    flag, newline, XON or XOFF. *)
Theorem C02_transparency : forall gen payload wire gen',
  octets payload -> writer gen payload = Some (wire, gen') ->
  exists inner, wire = [0x7e] ++ inner ++ [0x0a] /\
    Forall (fun c => c <> 0x7e /\ c <> 0x0a /\ c <> 0x11 /\ c <> 0x13) inner /\ octets inner.
Proof. exact writer_clean. Qed.
Print Assumptions C02_transparency.

(** The cost of transparency: the wire is at most two octets per octet of
    header and payload, plus flag, three check characters and newline. *)
Theorem C02_wire_length : forall gen payload wire gen',
  octets payload -> writer gen payload = Some (wire, gen') ->
  (length payload + 11 <= length wire <= 2 * length payload + 17)%nat.
Proof. exact wire_length. Qed.
Print Assumptions C02_wire_length.

Example C02_example : exists wire,
  writer 0x1110 [0x7e; 0x0a; 0x11; 0x13; 0x7d] = Some (wire, 0x1111) /\ length wire = 23%nat.
Proof. eexists. split; vm_compute; reflexivity. Qed.

(** C03: no history of tokens (octets or end of file), resets and re-arming
    with buffers of any size makes the machine store out of bounds or violate a
    contract ([run] is [None] in either case), and the octets beyond the claimed
    size of the buffer are never changed. *)
Theorem C03_buffer_safety : forall mem sz ops,
  0 <= sz <= Z.of_nat (length mem) -> Forall op_ok ops ->
  exists f, run (init mem sz) ops = Some f.
Proof. exact buffer_safety. Qed.
Print Assumptions C03_buffer_safety.

Theorem C03_confined : forall mem sz ops1 mem2 sz2 ops2 f,
  0 <= sz <= Z.of_nat (length mem) -> Forall op_ok ops1 ->
  0 <= sz2 <= Z.of_nat (length mem2) -> Forall op_ok ops2 ->
  (forall m n, ~ In (OSet m n) ops2) ->
  run (init mem sz) (ops1 ++ [OSet mem2 sz2] ++ ops2) = Some f ->
  length (buffer f) = length mem2 /\
  skipn (Z.to_nat sz2) (buffer f) = skipn (Z.to_nat sz2) mem2.
Proof. exact buffer_confined. Qed.
Print Assumptions C03_confined.

(** The reader loop, with its automatic resets, is as safe as the machine. *)
Theorem C03_reader_safe : forall f ts,
  reachable f -> Forall token_ok ts -> exists f' r rest, reader f ts = Some (f', r, rest).
Proof. exact reader_safe. Qed.
Print Assumptions C03_reader_safe.

Example C03_example :
  op_ok (OSet [1; 2; 3] 2) /\ op_ok (OToken (Some 255)) /\ op_ok (OToken None) /\
  option_map buffer (run (init [] 0) (ex_ops ++ [OSet [1; 2; 3; 4] 3] ++ ex_ops)) =
    Some [0x7e; 5; 0; 4].
Proof.
  split; [cbn; lia|]. split; [cbn; unfold is_u8; lia|]. split; [exact I|]. vm_compute. reflexivity.
Qed.

(** C04: if a token stream fed to a receiver that was reset completes a frame,
    then the last octets of the stream that are not flow control are a valid
    frame: the header passes the Fletcher-16 checksum, the payload the CRC-16,
    and the length field is the number of payload octets. The payload is in the
    buffer, and is what the application is told. *)
Theorem C04_acceptance_sound : forall f ts f1 t f2,
  reachable f -> st f = RESET -> Forall token_ok (ts ++ [t]) ->
  feed f ts = Some f1 -> iscomplete f1 = false ->
  machine f1 t = Some f2 -> iscomplete f2 = true ->
  exists noise wire payload seq,
    data_octets (ts ++ [t]) = noise ++ wire /\
    valid_frame wire payload seq /\
    Z.of_nat (length payload) <= size f2 /\
    firstn (length payload) (buffer f2) = payload /\
    getlength f2 = Z.of_nat (length payload) /\ sequence f2 = seq /\ previous f2 = sequence f.
Proof. exact acceptance_sound. Qed.
Print Assumptions C04_acceptance_sound.

(** A valid frame determines its payload and sequence number. *)
Theorem C04_unique_decoding : forall wire payload seq payload' seq',
  valid_frame wire payload seq -> valid_frame wire payload' seq' ->
  payload = payload' /\ seq = seq'.
Proof. exact unique_decoding. Qed.
Print Assumptions C04_unique_decoding.

Example C04_example : exists wire g f1 f2,
  writer 9 [1; 0x13; 3] = Some (wire, g) /\
  feed ex_receiver (tokens ([9; 0x7e; 9; 0x11] ++ removelast wire)) = Some f1 /\ iscomplete f1 = false /\
  machine f1 (Some 0x0a) = Some f2 /\ iscomplete f2 = true.
Proof. do 4 eexists. vms. Qed.

(** C05: the reader, after any noise that did not complete a frame and that did
    not end in an escape, receives the frame that follows. *)
Theorem C05_resync : forall f noise f1 wire payload seq rest,
  reachable f -> isterminal f = false -> octets noise ->
  reader f (tokens noise) = Some (f1, 0, []) -> iscomplete f1 = false ->
  escape_pending f1 = false ->
  valid_frame wire payload seq -> 0 < Z.of_nat (length payload) <= size f ->
  total f1 + Z.of_nat (length wire) < 9223372036854775808 ->
  exists f2, reader f1 (tokens wire ++ rest) = Some (f2, total f2, rest) /\ total f2 > 0 /\
    iscomplete f2 = true /\ getlength f2 = Z.of_nat (length payload) /\
    firstn (length payload) (buffer f2) = payload /\ sequence f2 = seq.
Proof. exact resync. Qed.
Print Assumptions C05_resync.

(** Whatever the noise ended in, a frame preceded by one more flag is received. *)
Theorem C05_resync_flag : forall f noise f1 wire payload seq rest,
  reachable f -> isterminal f = false -> octets noise ->
  reader f (tokens noise) = Some (f1, 0, []) -> iscomplete f1 = false ->
  valid_frame wire payload seq -> 0 < Z.of_nat (length payload) <= size f ->
  total f1 + 1 + Z.of_nat (length wire) < 9223372036854775808 ->
  exists f2, reader f1 (tokens ([0x7e] ++ wire) ++ rest) = Some (f2, total f2, rest) /\ total f2 > 0 /\
    iscomplete f2 = true /\ getlength f2 = Z.of_nat (length payload) /\
    firstn (length payload) (buffer f2) = payload /\ sequence f2 = seq.
Proof. exact resync_flag. Qed.
Print Assumptions C05_resync_flag.

(** Whatever the noise ended in, at most one frame is lost: of two frames in a
    row the first or else the second is received, and when the first is lost
    nothing is received in its place. *)
Theorem C05_resync_second : forall f noise f1 wire1 payload1 seq1 wire2 payload2 seq2 rest,
  reachable f -> isterminal f = false -> octets noise ->
  reader f (tokens noise) = Some (f1, 0, []) -> iscomplete f1 = false ->
  valid_frame wire1 payload1 seq1 -> 0 < Z.of_nat (length payload1) <= size f ->
  valid_frame wire2 payload2 seq2 -> 0 < Z.of_nat (length payload2) <= size f ->
  total f1 + Z.of_nat (length wire1) < 9223372036854775808 ->
  (exists f2, reader f1 (tokens wire1 ++ tokens wire2 ++ rest) = Some (f2, total f2, tokens wire2 ++ rest) /\
    total f2 > 0 /\ iscomplete f2 = true /\ getlength f2 = Z.of_nat (length payload1) /\
    firstn (length payload1) (buffer f2) = payload1 /\ sequence f2 = seq1) \/
  (exists f2, reader f1 (tokens wire1 ++ tokens wire2 ++ rest) = Some (f2, total f2, rest) /\
    total f2 > 0 /\ iscomplete f2 = true /\ getlength f2 = Z.of_nat (length payload2) /\
    firstn (length payload2) (buffer f2) = payload2 /\ sequence f2 = seq2).
Proof. exact resync_second. Qed.
Print Assumptions C05_resync_second.

(** The unrestricted claim is false: after a lone flag and escape the next
    frame is taken for an abort and lost. *)
Theorem C05_resync_refuted : exists f noise f1 wire payload seq f2,
  reachable f /\ isterminal f = false /\ octets noise /\
  reader f (tokens noise) = Some (f1, 0, []) /\ iscomplete f1 = false /\
  valid_frame wire payload seq /\ 0 < Z.of_nat (length payload) <= size f /\
  reader f1 (tokens wire) = Some (f2, 0, []) /\ iscomplete f2 = false.
Proof. exact resync_refuted. Qed.
Print Assumptions C05_resync_refuted.

Example C05_example : exists f1 wire g,
  reader ex_receiver (tokens [5; 0x7e; 0; 0x0a; 0x7e; 0; 0x7d; 0x13]) = Some (f1, 0, []) /\
  iscomplete f1 = false /\ isterminal ex_receiver = false /\ escape_pending f1 = true /\
  writer 3 [7; 8] = Some (wire, g) /\ (total f1 =? 4) = true.
Proof. do 3 eexists. vms. Qed.

(** C06: removing the flow control octets from a stream changes nothing the
    application can see except the octet count and the throttle, and the
    throttle is decided by the last flow control octet. *)
Theorem C06_flow_control : forall f ts f',
  feed f ts = Some f' ->
  throttle f' = last_flow (throttle f) ts /\
  exists g, feed f (filter (fun t => negb (is_flow t)) ts) = Some g /\
    st f' = st g /\ iscomplete f' = iscomplete g /\ getlength f' = getlength g /\
    buffer f' = buffer g /\ sequence f' = sequence g /\ previous f' = previous g /\
    set_total 0 (set_throttle false f') = set_total 0 (set_throttle false g).
Proof. exact flow_control. Qed.
Print Assumptions C06_flow_control.

Example C06_example : exists f',
  feed ex_receiver (tokens [0x7e; 0; 0x13; 2; 0x11; 0x13; 0x7d; 0x13; 0x31]) = Some f' /\
  throttle f' = true /\ st f' = SEQUENCE.
Proof. eexists. vms. Qed.

(** C07: a sender transmits datagrams [lost] and then [payload]; the receiver,
    whose last received sequence number is the sender's counter, gets only the
    last frame. The number of missing frames is the number lost. *)
Theorem C07_missing : forall f gen lost payload wires wire gen',
  reachable f -> isterminal f = false -> escape_pending f = false -> total f < 4611686018427387904 ->
  Forall octets (lost ++ [payload]) -> 0 < Z.of_nat (length payload) <= size f ->
  is_u16 gen -> sequence f = gen -> Z.of_nat (length lost) < 65536 ->
  transmit gen (lost ++ [payload]) = Some (wires ++ [wire], gen') ->
  exists f', reader f (tokens wire) = Some (f', total f', []) /\ iscomplete f' = true /\
    firstn (length payload) (buffer f') = payload /\ sequence f' = gen' /\
    getmissing f' = Z.of_nat (length lost) /\
    getduplicated f' = (- Z.of_nat (length lost)) mod 65536.
Proof. exact missing. Qed.
Print Assumptions C07_missing.

(** Both sides start synchronised. *)
Theorem C07_synchronised : forall mem sz,
  sequence (init mem sz) = 65535 /\ generated (init mem sz) = 65535 /\
  getmissing (init mem sz) = 0 /\ getduplicated (init mem sz) = 0.
Proof. intros. split; [reflexivity|]. split; [reflexivity|]. split; reflexivity. Qed.
Print Assumptions C07_synchronised.

(** A frame received [k] transmissions after a copy of it (k = 1 is an
    immediate repetition) is reported as [k] duplicated. *)
Theorem C07_duplicated : forall f wire payload seq k,
  reachable f -> isterminal f = false -> escape_pending f = false -> total f < 4611686018427387904 ->
  valid_frame wire payload seq -> 0 < Z.of_nat (length payload) <= size f ->
  1 <= k < 65536 -> sequence f = (seq + k - 1) mod 65536 ->
  exists f', reader f (tokens wire) = Some (f', total f', []) /\ iscomplete f' = true /\
    getduplicated f' = k /\ getmissing f' = (- k) mod 65536.
Proof. exact duplicated. Qed.
Print Assumptions C07_duplicated.

(** Roll over, far end restart and near end restart are exclusive, and roll over
    is the case of an expected sequence number 0. *)
Theorem C07_rollover : forall f, is_u16 (sequence f) -> is_u16 (previous f) ->
  (didrollover f = true <-> sequence f = 0 /\ getmissing f = 0) /\
  (didfarend f = true <-> sequence f = 0 /\ getmissing f <> 0) /\
  (didnearend f = true <-> previous f = 65535 /\ getmissing f <> 0).
Proof. exact rollover. Qed.
Print Assumptions C07_rollover.

Example C07_example : exists wires gen' f1 f2,
  transmit 0 [[1]; [2]; [3; 3]] = Some (wires, gen') /\
  reader ex_receiver (tokens (last wires [])) = Some (f1, 13, []) /\
  getmissing f1 = 2 /\
  reader (reset f1) (tokens (last wires [])) = Some (f2, 13, []) /\ getduplicated f2 = 1.
Proof. do 4 eexists. vms. Qed.
