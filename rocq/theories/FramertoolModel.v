(** Model of the input half of bin/framertool.c: lines of the standard input become frames.
    Undefined behaviour, which is [None]: storing outside of the line buffer. Simplifications:
    options, the multiplexor and the waiting are left out (each octet of the input is taken
    when it is there); the frames are given to diminuto_framer_writer, which is in FramerModel
    and of which only whether it works is asked here; the output half, which writes each
    frame received to the standard output, is in FramerlinkModel. *)

From Coq Require Import ZArith List Bool.
From Verif Require Import CInt CUtil.
Import ListNotations.
Local Open Scope Z_scope.

(** bin/framertool.c:114-116 and 93-94: the line buffer, the index of [here] in it, the total,
    and whether the device has ended; and the frames that were given to the writer. *)
Record tool := Tool { line : list Z; here : nat; total : nat; deveof : bool; frames : list (list Z) }.

(** bin/framertool.c:320-332; [memory] is what malloc(3) gave. *)
Definition start (memory : list Z) : tool := Tool memory 0 0 false [].

(** *(here++) = ch. *)
Fixpoint put (l : list Z) (i : nat) (x : Z) : option (list Z) :=
  match l, i with
  | [], _ => None
  | _ :: l, O => Some (x :: l)
  | y :: l, S i => let* l := put l i x in Some (y :: l)
  end.
Definition store (ch : Z) (s : tool) : option tool :=
  let* l := put (line s) (here s) ch in Some (Tool l (S (here s)) (S (total s)) (deveof s) (frames s)).

Section Framertool.
(** Whether the writer returns more than zero, by the number of the frame. *)
Variable sends : nat -> bool.

(** bin/framertool.c:332 and 405: limit is the size of the buffer less one, in a size_t, so that
    with a size of zero every total is below it. *)
Definition below (room total : nat) : bool := match room with O => true | S limit => Nat.ltb total limit end.
(** bin/framertool.c:388-411: one octet that was read. *)
Definition token (room : nat) (ch : Z) (s : tool) : option tool :=
  if ch =? 10 then
    let* s := store 10 s in
    let frame := firstn (total s) (line s) in
    if negb (sends (length (frames s))) then Some (Tool (line s) (here s) (total s) true (frames s ++ [frame]))
    else Some (Tool (line s) 0 0 (deveof s) (frames s ++ [frame]))
  else if below room (total s) then store ch s
  else Some s.

(** bin/framertool.c:381-412 and 490: until the input or the device ends. *)
Fixpoint input (room : nat) (chs : list Z) (s : tool) : option tool :=
  match chs with
  | [] => Some s
  | ch :: chs => if deveof s then Some s else let* s := token room ch s in input room chs s
  end.
Definition main (memory chs : list Z) : option tool := input (length memory) chs (start memory).
End Framertool.
