(** Model of bin/mmdrivertool.c: the utility that reads and writes memory through the driver
    of DriverModel. The host is little endian. Undefined behaviour, which is [None]: a shift
    by too much. What the fields of the operation contain that are not initialized is an
    argument. Simplifications: the options and their arguments are those of MemtoolModel, as
    getopt(3) has taken the command line apart; -U is left out, there is one device, which can
    be opened each time or never; the debug output and the messages are left out. *)

From Coq Require Import ZArith List Bool.
From Verif Require Import CUtil CInt NumberModel DecModel MemtoolModel.
From Verif Require DriverModel.
Import ListNotations.
Local Open Scope Z_scope.

(** A value in a union of the widths, inc/com/diag/diminuto/diminuto_datum.h:31-36: its eight
    octets. Assigning to the field of [w] octets changes the first of them. *)
Definition octet (v : Z) (k : nat) : Z := (v / 2 ^ (8 * Z.of_nat k)) mod 256.
Definition assign (w v : Z) (d : list Z) : list Z := map (octet v) (seq 0 (Z.to_nat w)) ++ skipn (Z.to_nat w) d.
Definition field (w : Z) (d : list Z) : Z := load (Z.to_nat w) (fun k => nth (Z.to_nat k) d 0) 0.

(** bin/mmdrivertool.c:91-101: the operation, the mask, the memory behind the driver, and what
    was printed. *)
Record tool := Tool { op_ : DriverModel.op; mask_ : Z; memory_ : Z -> Z; printed : list Z }.
Definition with_op o s := Tool o (mask_ s) (memory_ s) (printed s).
Definition with_mask v s := Tool (op_ s) v (memory_ s) (printed s).

(** bin/mmdrivertool.c:106-108; [junk] are the octets of the datum and of the mask that are not
    initialized. *)
Definition begin (junk junk' : list Z) (m : Z -> Z) : tool := Tool (DriverModel.mkop 0 4 (assign 4 0 junk) junk') 0 m [].

Section Mmtool.
(** Whether the device can be opened; and the driver: the result, what the operation is
    then, and the memory. *)
Variable opens : bool.
Variable driver : (Z -> Z) -> DriverModel.call -> Z * DriverModel.op * (Z -> Z).

(** bin/mmdrivertool.c:52-65 control after diminuto_fd_acquire: the flag is for error. *)
Definition control (cmd : DriverModel.command) (s : tool) : tool * bool :=
  if negb opens then (s, true)
  else
    let '(rc, o, m) := driver (memory_ s) (DriverModel.mkcall cmd (op_ s) true true) in
    (Tool o (mask_ s) m (printed s), rc <? 0).

(** bin/mmdrivertool.c:41-50 number. *)
Definition argument (t : list Z) (s : tool) (k : Z -> option (tool * bool * bool)) : option (tool * bool * bool) :=
  let '(v, next) := number_unsigned t in
  match next with [] => k v | _ => Some (s, true, false) end.

Definition give (s : tool) (v : Z) : tool :=
  let o := op_ s in
  with_op (DriverModel.mkop (DriverModel.offset o) (DriverModel.width o) (assign (DriverModel.width o) v (DriverModel.value o)) (DriverModel.mask o)) s.
Definition give_masked (s : tool) (v : Z) : tool :=
  let o := op_ s in
  with_op (DriverModel.mkop (DriverModel.offset o) (DriverModel.width o) (assign (DriverModel.width o) v (DriverModel.value o))
    (assign (DriverModel.width o) (mask_ s) (DriverModel.mask o))) s.
Definition current (s : tool) : Z := field (DriverModel.width (op_ s)) (DriverModel.value (op_ s)).
Definition sent (r : tool * bool) : option (tool * bool * bool) := Some (fst r, snd r, false).
(** bit << value, where bit has 64 bits. *)
Definition shifted (v : Z) (k : Z -> option (tool * bool * bool)) : option (tool * bool * bool) :=
  if v >? 63 then None else k (Z.shiftl 1 v).

(** bin/mmdrivertool.c:112-262: one option. The flags are for error and for done. An option
    that there is not is a question mark to getopt(3), and so is nothing but a message. *)
Definition option_ (f : flag) (s : tool) : option (tool * bool * bool) :=
  match f with
  | Width w t => argument t s (fun v => Some (with_op (DriverModel.mkop v w (DriverModel.value (op_ s)) (DriverModel.mask (op_ s))) s, false, false))
  | ClearBit t => argument t s (fun v => shifted v (fun v => sent (control DriverModel.CLEAR (give s v))))
  | Clear t => argument t s (fun v => sent (control DriverModel.CLEAR (give s v)))
  | IfFalse => Some (s, false, negb (current s =? 0))
  | Mask t => argument t s (fun v => Some (with_mask v s, false, false))
  | Read =>
      let '(s, error) := control DriverModel.READ s in
      if error then Some (s, true, false)
      else Some (Tool (op_ s) (mask_ s) (memory_ s) (printed s ++ number 10 (current s) ++ [10]), false, false)
  | SetBit t => argument t s (fun v => shifted v (fun v => sent (control DriverModel.SET (give_masked s v))))
  | Set_ t => argument t s (fun v => sent (control DriverModel.SET (give_masked s v)))
  | IfTrue => Some (s, false, current s =? 0)
  | Sleep t => argument t s (fun v => Some (s, false, false))
  | Write t => argument t s (fun v => sent (control DriverModel.WRITE (give s v)))
  | Debug | Help | Region _ | Extent _ | Core | Other => Some (s, false, false)
  end.

(** bin/mmdrivertool.c:110-281: the options in turn, and the exit status. *)
Fixpoint options_ (l : list flag) (s : tool) : option (tool * Z) :=
  match l with
  | [] => Some (s, 0)
  | f :: l =>
      let* r := option_ f s in
      let '(s, error, done) := r in
      if error then Some (s, 1) else if done then Some (s, 0) else options_ l s
  end.
Definition mmtool (junk junk' : list Z) (l : list flag) (m : Z -> Z) : option ((Z -> Z) * list Z * Z) :=
  let* r := options_ l (begin junk junk' m) in
  let '(s, status) := r in Some (memory_ s, printed s, status).
End Mmtool.

(** bin/mmdrivertool.c:232-237: how long -u waits, in ticks, which are nanoseconds. *)
Definition waits (t : list Z) : Z := fst (number_unsigned t).
