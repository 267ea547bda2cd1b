(** The frame format, written down independently of the state machine (from
    the format description in inc/com/diag/diminuto/diminuto_framer.h). *)

From Coq Require Import ZArith List Bool.
From Verif Require Import CInt ChecksumSpec.
Import ListNotations.
Local Open Scope Z_scope.

(** Flow control octets: XON 0x11 and XOFF 0x13. *)
Definition flow_octet (c : Z) : Prop := c = 0x11 \/ c = 0x13.

(** Octets that may not appear inside a frame: newline, escape, flag, XON, XOFF. *)
Definition reserved (c : Z) : Prop :=
  c = 0x0a \/ c = 0x7d \/ c = 0x7e \/ flow_octet c.

(** [encodes w d]: the octets [w] on the wire stand for the data octets [d].
    Escape followed by c stands for c exclusive or 0x20. *)
Inductive encodes : list Z -> list Z -> Prop :=
| encodes_nil : encodes [] []
| encodes_plain c w d : ~ reserved c -> encodes w d -> encodes (c :: w) (c :: d)
| encodes_escaped c w d : ~ reserved c -> encodes w d ->
    encodes (0x7d :: c :: w) (Z.lxor c 0x20 :: d).

(** Two octets, most significant first. *)
Definition big_endian (x : Z) : list Z := [x / 256; x mod 256].

(** Header: length, sequence number, Fletcher-16 of those four octets. *)
Definition header (len seq : Z) : list Z :=
  let h := big_endian len ++ big_endian seq in
  h ++ [sum h mod 255; weighted h mod 255].

(** Trailer: the CRC-16 of the payload in three printable characters. *)
Definition trailer (payload : list Z) : list Z :=
  let c := crc_string payload 0 in
  [32 + c / 4096; 32 + (c / 64) mod 64; 32 + c mod 64].

(** A complete frame carrying [payload] under sequence number [seq]. *)
Definition valid_frame (wire payload : list Z) (seq : Z) : Prop :=
  octets payload /\ Z.of_nat (length payload) <= 65535 /\ is_u16 seq /\
  exists w,
    wire = [0x7e] ++ w ++ trailer payload ++ [0x0a] /\
    encodes w (header (Z.of_nat (length payload)) seq ++ payload).

(** The octets of a token stream that are not flow control. *)
Fixpoint data_octets (tokens : list (option Z)) : list Z :=
  match tokens with
  | [] => []
  | Some c :: r => if orb (c =? 0x11) (c =? 0x13) then data_octets r else c :: data_octets r
  | None :: r => data_octets r
  end.

(** Octets as tokens. *)
Definition tokens (wire : list Z) : list (option Z) := map Some wire.

(** The throttle after a stream: the last flow control octet decides. *)
Fixpoint last_flow (th : bool) (ts : list (option Z)) : bool :=
  match ts with
  | [] => th
  | Some c :: r => last_flow (if c =? 0x11 then false else if c =? 0x13 then true else th) r
  | None :: r => last_flow th r
  end.


(** Flow control tokens. *)
Definition is_flow (t : option Z) : bool :=
  match t with Some c => (c =? 0x11) || (c =? 0x13) | None => false end.
