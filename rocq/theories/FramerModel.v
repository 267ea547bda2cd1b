(** Model of diminuto_framer.c and diminuto_framer.h. *)

From Coq Require Import ZArith List Bool.
From Verif Require Import CInt ChecksumModel.
Import ListNotations.
Local Open Scope Z_scope.

(** src/diminuto_framer.h:20-30. *)
Definition ESCAPE : Z := 0x7d.
Definition FLAG_T : Z := 0x7e.
Definition NEWLINE_T : Z := 0x0a.
Definition XOFF : Z := 0x13.
Definition XON : Z := 0x11.
Definition MASK : Z := 0x20.

(** inc/com/diag/diminuto/diminuto_framer.h:155-175. *)
Inductive state :=
| ABORT | COMPLETE | FAILED | FINAL | FLAG | FLETCHER | FLETCHER_ESCAPED
| IDLE | INVALID | KERMIT | LENGTH | LENGTH_ESCAPED | NEWLINE | OVERFLOW
| PAYLOAD | PAYLOAD_ESCAPED | RESET | SEQUENCE | SEQUENCE_ESCAPED.

(** src/diminuto_framer.h:36-46. *)
Inductive action :=
| CONSUME | A_FLETCHER | A_KERMIT | A_LENGTH | A_PAYLOAD | A_RESET
| A_SEQUENCE | STORE | TERMINATE.

(** The object the [here] pointer points into. *)
Inductive region := RNone | RLength | RSequence | RSum | RCheck | RBuffer.

(** inc diminuto_framer.h:180-201, struct DiminutoFramer. The pointer [here] is
    a region and an offset. [buffer] is the memory the buffer pointer refers
    to; [size] is the size the application claimed for it. The C object length0
    (and sequence0) is written octet by octet in network order and later
    converted in place with ntohs; the model keeps the raw octets in
    [length0b] ([sequence0b]) and the converted value in [length0]
    ([sequence0]). [debug] only controls logging and is left out. *)
Record framer := Framer {
  buffer : list Z;
  here : region;
  off : nat;
  size : Z;
  limit : Z;
  total : Z;
  st : state;
  length0b : list Z;
  length0 : Z;
  length_ : Z;
  sequence0b : list Z;
  sequence0 : Z;
  sequence : Z;
  previous : Z;
  generated : Z;
  crc : Z;
  crc0 : Z;
  fa : Z;
  fb : Z;
  sum : list Z;
  check : list Z;
  throttle : bool
}.

(** Field updates. *)
Definition set_buffer v f := Framer v (here f) (off f) (size f) (limit f) (total f) (st f) (length0b f) (length0 f) (length_ f) (sequence0b f) (sequence0 f) (sequence f) (previous f) (generated f) (crc f) (crc0 f) (fa f) (fb f) (sum f) (check f) (throttle f).
Definition set_here r o l f := Framer (buffer f) r o (size f) l (total f) (st f) (length0b f) (length0 f) (length_ f) (sequence0b f) (sequence0 f) (sequence f) (previous f) (generated f) (crc f) (crc0 f) (fa f) (fb f) (sum f) (check f) (throttle f).
Definition set_size v f := Framer (buffer f) (here f) (off f) v (limit f) (total f) (st f) (length0b f) (length0 f) (length_ f) (sequence0b f) (sequence0 f) (sequence f) (previous f) (generated f) (crc f) (crc0 f) (fa f) (fb f) (sum f) (check f) (throttle f).
Definition set_total v f := Framer (buffer f) (here f) (off f) (size f) (limit f) v (st f) (length0b f) (length0 f) (length_ f) (sequence0b f) (sequence0 f) (sequence f) (previous f) (generated f) (crc f) (crc0 f) (fa f) (fb f) (sum f) (check f) (throttle f).
Definition set_st v f := Framer (buffer f) (here f) (off f) (size f) (limit f) (total f) v (length0b f) (length0 f) (length_ f) (sequence0b f) (sequence0 f) (sequence f) (previous f) (generated f) (crc f) (crc0 f) (fa f) (fb f) (sum f) (check f) (throttle f).
Definition set_length0b v f := Framer (buffer f) (here f) (off f) (size f) (limit f) (total f) (st f) v (length0 f) (length_ f) (sequence0b f) (sequence0 f) (sequence f) (previous f) (generated f) (crc f) (crc0 f) (fa f) (fb f) (sum f) (check f) (throttle f).
Definition set_length0 v f := Framer (buffer f) (here f) (off f) (size f) (limit f) (total f) (st f) (length0b f) v (length_ f) (sequence0b f) (sequence0 f) (sequence f) (previous f) (generated f) (crc f) (crc0 f) (fa f) (fb f) (sum f) (check f) (throttle f).
Definition set_sequence0b v f := Framer (buffer f) (here f) (off f) (size f) (limit f) (total f) (st f) (length0b f) (length0 f) (length_ f) v (sequence0 f) (sequence f) (previous f) (generated f) (crc f) (crc0 f) (fa f) (fb f) (sum f) (check f) (throttle f).
Definition set_sequence0 v f := Framer (buffer f) (here f) (off f) (size f) (limit f) (total f) (st f) (length0b f) (length0 f) (length_ f) (sequence0b f) v (sequence f) (previous f) (generated f) (crc f) (crc0 f) (fa f) (fb f) (sum f) (check f) (throttle f).
Definition set_received p s l f := Framer (buffer f) (here f) (off f) (size f) (limit f) (total f) (st f) (length0b f) (length0 f) l (sequence0b f) (sequence0 f) s p (generated f) (crc f) (crc0 f) (fa f) (fb f) (sum f) (check f) (throttle f).
Definition set_generated v f := Framer (buffer f) (here f) (off f) (size f) (limit f) (total f) (st f) (length0b f) (length0 f) (length_ f) (sequence0b f) (sequence0 f) (sequence f) (previous f) v (crc f) (crc0 f) (fa f) (fb f) (sum f) (check f) (throttle f).
Definition set_crc v f := Framer (buffer f) (here f) (off f) (size f) (limit f) (total f) (st f) (length0b f) (length0 f) (length_ f) (sequence0b f) (sequence0 f) (sequence f) (previous f) (generated f) v (crc0 f) (fa f) (fb f) (sum f) (check f) (throttle f).
Definition set_crc0 v f := Framer (buffer f) (here f) (off f) (size f) (limit f) (total f) (st f) (length0b f) (length0 f) (length_ f) (sequence0b f) (sequence0 f) (sequence f) (previous f) (generated f) (crc f) v (fa f) (fb f) (sum f) (check f) (throttle f).
Definition set_ab v w f := Framer (buffer f) (here f) (off f) (size f) (limit f) (total f) (st f) (length0b f) (length0 f) (length_ f) (sequence0b f) (sequence0 f) (sequence f) (previous f) (generated f) (crc f) (crc0 f) v w (sum f) (check f) (throttle f).
Definition set_sum v f := Framer (buffer f) (here f) (off f) (size f) (limit f) (total f) (st f) (length0b f) (length0 f) (length_ f) (sequence0b f) (sequence0 f) (sequence f) (previous f) (generated f) (crc f) (crc0 f) (fa f) (fb f) v (check f) (throttle f).
Definition set_check v f := Framer (buffer f) (here f) (off f) (size f) (limit f) (total f) (st f) (length0b f) (length0 f) (length_ f) (sequence0b f) (sequence0 f) (sequence f) (previous f) (generated f) (crc f) (crc0 f) (fa f) (fb f) (sum f) v (throttle f).
Definition set_throttle v f := Framer (buffer f) (here f) (off f) (size f) (limit f) (total f) (st f) (length0b f) (length0 f) (length_ f) (sequence0b f) (sequence0 f) (sequence f) (previous f) (generated f) (crc f) (crc0 f) (fa f) (fb f) (sum f) (check f) v.

(** inc diminuto_framer.h:213-233, DIMINUTO_FRAMER_INITIALIZER, with
    DIMINUTO_FRAMER_WINDOW = 65536. The null buffer is an empty memory. *)
Definition initializer : framer :=
  Framer [] RNone 0 0 0 0 IDLE [0; 0] 0 0 [0; 0] 0 65535 65534 65535 0 0 0 0
         [0; 0] [32; 32; 32] false.

(** inc diminuto_framer.h:271-274. *)
Definition reset (f : framer) : framer := set_st RESET f.

(** inc diminuto_framer.h:285-289. [mem] is the memory at the buffer pointer. *)
Definition set (mem : list Z) (sz : Z) (f : framer) : framer :=
  reset (set_size sz (set_buffer mem f)).

(** diminuto_framer.c:42-49. *)
Definition init (mem : list Z) (sz : Z) : framer := set mem sz initializer.

(** A store through a pointer into an array object: [None] when out of bounds
    (undefined behaviour in C). *)
Definition put (l : list Z) (i : nat) (x : Z) : option (list Z) :=
  if Nat.ltb i (length l) then Some (firstn i l ++ x :: skipn (S i) l) else None.

(** diminuto_framer.c:557-559 (also 563-565, 577-579, 590-592, 616-618,
    625-627): the contract, the store and the decrement. A contract violation
    aborts the program; it is [None] here too. *)
Definition store (ch : Z) (f : framer) : option framer :=
  if limit f <=? 0 then None else
  let next := set_here (here f) (S (off f)) (limit f - 1) in
  match here f with
  | RNone => None
  | RLength =>
      match put (length0b f) (off f) ch with Some l => Some (next (set_length0b l f)) | None => None end
  | RSequence =>
      match put (sequence0b f) (off f) ch with Some l => Some (next (set_sequence0b l f)) | None => None end
  | RSum =>
      match put (sum f) (off f) ch with Some l => Some (next (set_sum l f)) | None => None end
  | RCheck =>
      match put (check f) (off f) ch with Some l => Some (next (set_check l f)) | None => None end
  | RBuffer =>
      match put (buffer f) (off f) ch with Some l => Some (next (set_buffer l f)) | None => None end
  end.

(** The outcome of the first switch: the new state, the action, the possibly
    unescaped octet and the throttle. *)
Definition outcome : Type := state * action * Z * bool.

(** The cases XON and XOFF, common to every state. *)
Definition flow (ch : Z) (th : bool) : bool :=
  if ch =? XON then false else if ch =? XOFF then true else th.

(** diminuto_framer.c:97-115. *)
Definition on_reset (ch : Z) (th : bool) : outcome :=
  if ch =? FLAG_T then (FLAG, A_RESET, ch, th)
  else (RESET, CONSUME, ch, flow ch th).

(** diminuto_framer.c:117-141. *)
Definition on_flag (ch : Z) (th : bool) : outcome :=
  if ch =? NEWLINE_T then (INVALID, CONSUME, ch, th)
  else if ch =? FLAG_T then (FLAG, CONSUME, ch, th)
  else if ch =? ESCAPE then (LENGTH_ESCAPED, CONSUME, ch, th)
  else if (ch =? XON) || (ch =? XOFF) then (FLAG, CONSUME, ch, flow ch th)
  else (LENGTH, STORE, ch, th).

(** diminuto_framer.c:143-170, 218-245, 293-320 and 368-395: the four unescaped
    field states differ only in their escaped state, their last action and
    their next state. *)
Definition on_field (self escaped : state) (act : action) (next : state)
    (lim ch : Z) (th : bool) : outcome :=
  if ch =? NEWLINE_T then (INVALID, CONSUME, ch, th)
  else if ch =? FLAG_T then (FLAG, A_RESET, ch, th)
  else if ch =? ESCAPE then (escaped, CONSUME, ch, th)
  else if (ch =? XON) || (ch =? XOFF) then (self, CONSUME, ch, flow ch th)
  else if 1 <? lim then (self, STORE, ch, th)
  else (next, act, ch, th).

(** diminuto_framer.c:172-216, 247-291, 322-366 and 397-441. *)
Definition on_escaped (self plain : state) (act : action) (next : state)
    (lim ch : Z) (th : bool) : outcome :=
  if ch =? NEWLINE_T then (INVALID, CONSUME, ch, th)
  else if ch =? FLAG_T then (ABORT, CONSUME, ch, th)
  else if ch =? ESCAPE then (INVALID, CONSUME, ch, th)
  else if (ch =? XON) || (ch =? XOFF) then (self, CONSUME, ch, flow ch th)
  else let ch := Z.lxor ch MASK in
       if 1 <? lim then (plain, STORE, ch, th)
       else (next, act, ch, th).

(** diminuto_framer.c:443-492. *)
Definition on_kermit (lim ch : Z) (th : bool) : outcome :=
  if ch =? NEWLINE_T then (INVALID, CONSUME, ch, th)
  else if ch =? FLAG_T then (FLAG, A_RESET, ch, th)
  else if ch =? ESCAPE then (INVALID, CONSUME, ch, th)
  else if (ch =? XON) || (ch =? XOFF) then (KERMIT, CONSUME, ch, flow ch th)
  else if lim =? 3 then (KERMIT, STORE, ch, th)
  else if lim =? 2 then (KERMIT, STORE, ch, th)
  else if lim =? 1 then (NEWLINE, A_KERMIT, ch, th)
  else (INVALID, CONSUME, ch, th).

(** diminuto_framer.c:494-520. *)
Definition on_newline (ch : Z) (th : bool) : outcome :=
  if ch =? NEWLINE_T then (COMPLETE, TERMINATE, ch, th)
  else if ch =? FLAG_T then (FLAG, A_RESET, ch, th)
  else if (ch =? XON) || (ch =? XOFF) then (NEWLINE, CONSUME, ch, flow ch th)
  else (INVALID, CONSUME, ch, th).

(** diminuto_framer.c:95-539. *)
Definition transition (s : state) (lim ch : Z) (th : bool) : outcome :=
  match s with
  | RESET => on_reset ch th
  | FLAG => on_flag ch th
  | LENGTH => on_field LENGTH LENGTH_ESCAPED A_LENGTH SEQUENCE lim ch th
  | LENGTH_ESCAPED => on_escaped LENGTH_ESCAPED LENGTH A_LENGTH SEQUENCE lim ch th
  | SEQUENCE => on_field SEQUENCE SEQUENCE_ESCAPED A_SEQUENCE FLETCHER lim ch th
  | SEQUENCE_ESCAPED => on_escaped SEQUENCE_ESCAPED SEQUENCE A_SEQUENCE FLETCHER lim ch th
  | FLETCHER => on_field FLETCHER FLETCHER_ESCAPED A_FLETCHER PAYLOAD lim ch th
  | FLETCHER_ESCAPED => on_escaped FLETCHER_ESCAPED FLETCHER A_FLETCHER PAYLOAD lim ch th
  | PAYLOAD => on_field PAYLOAD PAYLOAD_ESCAPED A_PAYLOAD KERMIT lim ch th
  | PAYLOAD_ESCAPED => on_escaped PAYLOAD_ESCAPED PAYLOAD A_PAYLOAD KERMIT lim ch th
  | KERMIT => on_kermit lim ch th
  | NEWLINE => on_newline ch th
  | COMPLETE | FINAL | ABORT | FAILED | OVERFLOW | INVALID | IDLE =>
      (s, CONSUME, ch, flow ch th)
  end.

(** ntohs of the two octets of a uint16_t in memory order. *)
Definition ntohs (l : list Z) : Z := 256 * nth 0 l 0 + nth 1 l 0.

(** diminuto_framer.c:543-554. *)
Definition act_reset (f : framer) : framer :=
  set_ab 0 0 (set_crc 0 (set_total 1 (set_length0 0 (set_length0b [0; 0] (set_here RLength 0 2 f))))).

(** diminuto_framer.c:562-574. *)
Definition act_length (ch : Z) (f : framer) : option framer :=
  match store ch f with
  | None => None
  | Some f =>
      let ab := fletcher_16 (length0b f) 0 0 in
      Some (set_here RSequence 0 2 (set_ab (fst ab) (snd ab) f))
  end.

(** diminuto_framer.c:576-587. *)
Definition act_sequence (ch : Z) (f : framer) : option framer :=
  match store ch f with
  | None => None
  | Some f =>
      let ab := fletcher_16 (sequence0b f) (fa f) (fb f) in
      Some (set_here RSum 0 2 (set_ab (fst ab) (snd ab) f))
  end.

(** diminuto_framer.c:589-613. *)
Definition act_fletcher (ch : Z) (f : framer) : option framer :=
  match store ch f with
  | None => None
  | Some f =>
      if negb (nth 0 (sum f) 0 =? fa f) || negb (nth 1 (sum f) 0 =? fb f)
      then Some (set_st FAILED f)
      else
        let f := set_length0 (ntohs (length0b f)) f in
        let f := set_sequence0 (ntohs (sequence0b f)) f in
        if length0 f =? 0 then Some (set_st KERMIT (set_here RCheck 0 3 f))
        else if size f <? length0 f then Some (set_st OVERFLOW f)
        else Some (set_here RBuffer 0 (length0 f) f)
  end.

(** diminuto_framer.c:615-622. The CRC reads length0 octets of the buffer. *)
Definition act_payload (ch : Z) (f : framer) : option framer :=
  match store ch f with
  | None => None
  | Some f =>
      if Z.of_nat (length (buffer f)) <? length0 f then None
      else
        let f := set_crc (kermit_16 (firstn (Z.to_nat (length0 f)) (buffer f)) 0) f in
        Some (set_here RCheck 0 3 f)
  end.

(** diminuto_framer.c:624-639. *)
Definition act_kermit (ch : Z) (f : framer) : option framer :=
  match store ch f with
  | None => None
  | Some f =>
      let c0 := nth 0 (check f) 0 in
      let c1 := nth 1 (check f) 0 in
      let c2 := nth 2 (check f) 0 in
      if negb (firstisvalid c0) then Some (set_st FAILED f)
      else if negb (secondisvalid c1) then Some (set_st FAILED f)
      else if negb (thirdisvalid c2) then Some (set_st FAILED f)
      else
        let f := set_crc0 (chars2crc c0 c1 c2) f in
        if negb (crc0 f =? crc f) then Some (set_st FAILED f) else Some f
  end.

(** diminuto_framer.c:641-663. *)
Definition act_terminate (f : framer) : option framer :=
  let received := set_received (sequence f) (sequence0 f) (length0 f) in
  if length0 f <? size f then
    match put (buffer f) (Z.to_nat (length0 f)) 0 with
    | Some l => Some (received (set_buffer l f))
    | None => None
    end
  else Some (received f).

(** diminuto_framer.c:541-671. *)
Definition act (a : action) (ch : Z) (f : framer) : option framer :=
  match a with
  | CONSUME => Some f
  | STORE => store ch f
  | A_RESET => Some (act_reset f)
  | A_LENGTH => act_length ch f
  | A_SEQUENCE => act_sequence ch f
  | A_FLETCHER => act_fletcher ch f
  | A_PAYLOAD => act_payload ch f
  | A_KERMIT => act_kermit ch f
  | TERMINATE => act_terminate f
  end.

(** diminuto_framer.c:74-684. A token is an octet or end of file ([None]).
    The result is the new state of the object, or [None] if the code would
    store out of bounds or violate a contract. [total] is a size_t. *)
Definition machine (f : framer) (token : option Z) : option framer :=
  let '(f, ch) :=
    match token with
    | None => (set_st FINAL f, 0)
    | Some c => (set_total (u64 (total f + 1)) f, c)
    end in
  let '(s, a, ch, th) := transition (st f) (limit f) ch (throttle f) in
  act a ch (set_throttle th (set_st s f)).

(** diminuto_framer.c:686-740, the octets put on the stream. Stream errors are
    not modelled: the stream accepts every octet. *)
Definition special (ch : Z) : bool :=
  (ch =? NEWLINE_T) || (ch =? FLAG_T) || (ch =? ESCAPE) || (ch =? XON) || (ch =? XOFF).

Definition emit1 (ch : Z) : list Z :=
  if special ch then [ESCAPE; Z.lxor ch MASK] else [ch].

Fixpoint emit (data : list Z) : list Z :=
  match data with
  | [] => []
  | ch :: rest => emit1 ch ++ emit rest
  end.

(** diminuto_framer.c:742-768. *)
Definition abort : list Z := [ESCAPE; FLAG_T].

(** htons: the two octets of a uint16_t in network order. *)
Definition htons (x : Z) : list Z := [u8 (Z.shiftr x 8); u8 x].

(** diminuto_framer.c:845-971. Returns the octets written (their number is the
    result of the C function) and the new generator; [None] is the E2BIG
    error, which writes nothing. *)
Definition writer (gen : Z) (data : list Z) : option (list Z * Z) :=
  let len := Z.of_nat (length data) in
  if 65535 <? len then None
  else
    let header := htons (u16 len) in
    let ab := fletcher_16 header 0 0 in
    let gen := u16 (gen + 1) in
    let generated := htons gen in
    let ab := fletcher_16 generated (fst ab) (snd ab) in
    let crc := if 0 <? len then kermit_16 data 0 else 0 in
    let '(k0, k1, k2) := crc2chars crc in
    Some ([FLAG_T] ++ emit header ++ emit generated ++ emit [fst ab; snd ab]
          ++ (if 0 <? len then emit data else []) ++ [k0; k1; k2] ++ [NEWLINE_T], gen).

(** diminuto_framer.c:791-832, one token of the reader: the machine, then the
    automatic reset. The result is 0 to carry on, EOF (-1) at end of file, or
    the number of octets of the completed frame. *)
Definition reader_step (f : framer) (token : option Z) : option (framer * Z) :=
  match machine f token with
  | None => None
  | Some f =>
      match st f with
      | COMPLETE => if length_ f =? 0 then Some (reset f, 0) else Some (f, total f)
      | FINAL => Some (f, -1)
      | ABORT | FAILED | OVERFLOW | INVALID => Some (reset f, 0)
      | _ => Some (f, 0)
      end
  end.

(** diminuto_framer.c:774-843. The list holds the tokens that can be read
    before the stream stops being ready; the result carries those not read. *)
Fixpoint reader (f : framer) (tokens : list (option Z)) : option (framer * Z * list (option Z)) :=
  match tokens with
  | [] => Some (f, 0, [])
  | t :: rest =>
      match reader_step f t with
      | None => None
      | Some (f, r) => if r =? 0 then reader f rest else Some (f, r, rest)
      end
  end.

(** inc diminuto_framer.h:300-302. *)
Definition iscomplete (f : framer) : bool :=
  match st f with COMPLETE => true | _ => false end.

(** inc diminuto_framer.h:312-325. *)
Definition isterminal (f : framer) : bool :=
  match st f with
  | COMPLETE | FINAL | ABORT | FAILED | OVERFLOW | INVALID | IDLE => true
  | _ => false
  end.

(** inc diminuto_framer.h:336-347. *)
Definition iserror (f : framer) : bool :=
  match st f with
  | FINAL | ABORT | FAILED | OVERFLOW | INVALID => true
  | _ => false
  end.

(** inc diminuto_framer.h:355-357. *)
Definition getlength (f : framer) : Z := if iscomplete f then length_ f else -1.

(** inc diminuto_framer.h:376-378, 387-389 and 399-401. *)
Definition didrollover (f : framer) : bool := (previous f =? 65535) && (sequence f =? 0).
Definition didfarend (f : framer) : bool := negb (previous f =? 65535) && (sequence f =? 0).
Definition didnearend (f : framer) : bool := (previous f =? 65535) && negb (sequence f =? 0).

(** inc diminuto_framer.h:414-418 and 431-435. *)
Definition getmissing (f : framer) : Z := u16 (sequence f - 1 - previous f).
Definition getduplicated (f : framer) : Z := u16 (previous f + 1 - sequence f).

(** The machine over a sequence of tokens (the documented use of
    diminuto_framer_machine, one call per token). *)
Fixpoint feed (f : framer) (tokens : list (option Z)) : option framer :=
  match tokens with
  | [] => Some f
  | t :: rest => match machine f t with Some f => feed f rest | None => None end
  end.

(** * Histories of calls *)

(** The values a call of diminuto_framer_machine may be given. *)
Definition token_ok (t : option Z) : Prop :=
  match t with Some c => is_u8 c | None => True end.

(** What an application can do with the object: feed a token, reset it, or arm
    it with a buffer. *)
Inductive op := OToken (t : option Z) | OReset | OSet (mem : list Z) (sz : Z).

Definition op_ok (o : op) : Prop :=
  match o with
  | OToken t => token_ok t
  | OReset => True
  | OSet mem sz => 0 <= sz <= Z.of_nat (length mem)
  end.

Definition apply_op (f : framer) (o : op) : option framer :=
  match o with
  | OToken t => machine f t
  | OReset => Some (reset f)
  | OSet mem sz => Some (set mem sz f)
  end.

Fixpoint run (f : framer) (ops : list op) : option framer :=
  match ops with
  | [] => Some f
  | o :: r => match apply_op f o with Some f => run f r | None => None end
  end.

(** The object of an application that starts with diminuto_framer_init and
    then makes any sequence of calls. *)
Definition reachable (f : framer) : Prop :=
  exists mem sz ops, 0 <= sz <= Z.of_nat (length mem) /\ Forall op_ok ops /\ run (init mem sz) ops = Some f.

(** The application can see that the last octet was an escape. *)
Definition escape_pending (f : framer) : bool :=
  match st f with
  | LENGTH_ESCAPED | SEQUENCE_ESCAPED | FLETCHER_ESCAPED | PAYLOAD_ESCAPED => true
  | _ => false
  end.


(** A sender writing several datagrams in a row: the frames, and the generator
    afterwards. *)
Fixpoint transmit (gen : Z) (datagrams : list (list Z)) : option (list (list Z) * Z) :=
  match datagrams with
  | [] => Some ([], gen)
  | d :: rest =>
      match writer gen d with
      | None => None
      | Some (wire, gen) =>
          match transmit gen rest with
          | None => None
          | Some (wires, gen) => Some (wire :: wires, gen)
          end
      end
  end.
