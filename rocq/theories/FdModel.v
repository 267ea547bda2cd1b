(** Model of diminuto_fd_read_generic and diminuto_fd_write_generic of diminuto_fd.c,
    and of the signal counting of diminuto_alarm.c, diminuto_hangup.c,
    diminuto_interrupter.c, diminuto_pipe.c, diminuto_reaper.c and
    diminuto_terminator.c. *)

From Coq Require Import ZArith List Bool.
From Verif Require Import CInt CUtil.
Import ListNotations.
Local Open Scope Z_scope.

(** * Descriptors *)

(** What the kernel does with the next system call: fail with an errno, or transfer at
    most the given number of octets (at least one). *)
Inductive reply := Fail (errno : Z) | Give (most : positive).

(** The read system call on a descriptor with the given octets pending (end of file
    after them): the octets transferred, or an error. *)
Definition sys_read (pending : list Z) (slack : nat) (r : reply) : option (list Z) :=
  match r with
  | Fail _ => None
  | Give k => Some (firstn (Nat.min slack (Pos.to_nat k)) pending)
  end.

(** The write system call: the number of octets accepted, or an error. *)
Definition sys_write (slack : nat) (r : reply) : option nat :=
  match r with
  | Fail _ => None
  | Give k => Some (Nat.min slack (Pos.to_nat k))
  end.

(** Storing octets at an offset of a buffer. *)
Definition store (buffer : list Z) (offset : nat) (data : list Z) : list Z :=
  firstn offset buffer ++ data ++ skipn (offset + length data) buffer.

(** src/diminuto_fd.c:74-112 diminuto_fd_read_generic: the result, the buffer, what
    is still pending, and the octets each system call transferred. [total] is also the
    offset of bp. The fuel is enough for every call, as each transfers an octet or ends
    the loop. [min] as ssize_t: below 2^63 it is itself. *)
Fixpoint read_loop (fuel : nat) (replies : nat -> reply) (min : Z) (buffer pending : list Z) (total slack : nat)
  : Z * list Z * list Z * list nat :=
  match fuel with
  | O => (Z.of_nat total, buffer, pending, [])
  | S fuel =>
      if (slack =? 0)%nat then (Z.of_nat total, buffer, pending, [])
      else
        match sys_read pending slack (replies O) with
        | None => ((if (total =? 0)%nat then -1 else Z.of_nat total), buffer, pending, [])
        | Some [] => (Z.of_nat total, buffer, pending, [])
        | Some data =>
            let current := length data in
            let buffer := store buffer total data in
            let pending := skipn current pending in
            let slack := (slack - current)%nat in
            let total := (total + current)%nat in
            if Z.of_nat total >=? s64 min then (Z.of_nat total, buffer, pending, [current])
            else
              let '(r, b, p, counts) := read_loop fuel (fun n => replies (S n)) min buffer pending total slack in
              (r, b, p, current :: counts)
        end
  end.
Definition read_generic (replies : nat -> reply) (buffer pending : list Z) (min : Z) (max : nat) : Z * list Z * list Z * list nat :=
  read_loop (S max) replies min buffer pending 0 max.

(** src/diminuto_fd.c:114-152 diminuto_fd_write_generic: the result, what the
    descriptor has accepted in all, and the octets each system call transferred. *)
Fixpoint write_loop (fuel : nat) (replies : nat -> reply) (min : Z) (buffer accepted : list Z) (total slack : nat)
  : Z * list Z * list nat :=
  match fuel with
  | O => (Z.of_nat total, accepted, [])
  | S fuel =>
      if (slack =? 0)%nat then (Z.of_nat total, accepted, [])
      else
        match sys_write slack (replies O) with
        | None => ((if (total =? 0)%nat then -1 else Z.of_nat total), accepted, [])
        | Some O => (Z.of_nat total, accepted, [])
        | Some current =>
            let accepted := accepted ++ firstn current (skipn total buffer) in
            let slack := (slack - current)%nat in
            let total := (total + current)%nat in
            if Z.of_nat total >=? s64 min then (Z.of_nat total, accepted, [current])
            else
              let '(r, a, counts) := write_loop fuel (fun n => replies (S n)) min buffer accepted total slack in
              (r, a, current :: counts)
        end
  end.
Definition write_generic (replies : nat -> reply) (buffer accepted : list Z) (min : Z) (max : nat) : Z * list Z * list nat :=
  write_loop (S max) replies min buffer accepted 0 max.

(** src/diminuto_fd.c:224-227 diminuto_fd_map_ref: the index of the slot, if any. *)
Definition map_ref (count fd : Z) : option Z := if (0 <=? fd) && (fd <? count) then Some fd else None.

(** * Signals *)

Definition MAXIMUM : Z := 2147483647.

(** Where a thread is in diminuto_alarm_check (src/diminuto_alarm.c:61-83; the other
    modules have the same lines): outside; holding the mutex; with the signal masked;
    having loaded the counter; having cleared it; and with the signal unmasked again.
    Loads and stores of the counter are atomic. *)
Inductive place := Outside | Locked | Masked | Loaded (v : Z) | Cleared (v : Z) | Unmasked (v : Z).

(** A thread: where it is in check, whether the signal is pending for it (a signal
    that is already pending is not queued twice), and whether it is in the handler,
    with the value the handler has loaded. *)
Record local := Local { at_ : place; pending : bool; handler : option Z }.

Record process := Process {
  signaled : Z;                  (* the counter *)
  mutex : option nat;            (* the thread that holds the mutex *)
  threads : nat -> local;
  returned : list Z;             (* what checks have returned, latest first *)
  handled : Z }.                 (* how often the handler has run *)

Definition process_init : process := Process 0 None (fun _ => Local Outside false None) [] 0.

Definition masked (p : place) : bool :=
  match p with Masked | Loaded _ | Cleared _ => true | _ => false end.
Definition upd (f : nat -> local) (t : nat) (l : local) : nat -> local := fun u => if (u =? t)%nat then l else f u.

(** A signal is delivered to a thread, or a thread takes a step. *)
Inductive action := Arrive (t : nat) | Step (t : nat).

(** src/diminuto_alarm.c:46-59 diminuto_alarm_handler, entered: it loads the counter.
    The signal is blocked while the handler runs. *)
Definition enter (s : process) (l : local) : local := Local (at_ l) false (Some (signaled s)).

Definition act (s : process) (a : action) : process :=
  match a with
  | Arrive t =>
      let l := threads s t in
      if masked (at_ l) || (match handler l with Some _ => true | None => false end)
      then Process (signaled s) (mutex s) (upd (threads s) t (Local (at_ l) true (handler l))) (returned s) (handled s)
      else Process (signaled s) (mutex s) (upd (threads s) t (enter s l)) (returned s) (handled s)
  | Step t =>
      let l := threads s t in
      match handler l with
      | Some v =>
          (* 52-56: the handler stores what it loaded plus one, and returns *)
          let s' := Process (if v <? MAXIMUM then v + 1 else signaled s) (mutex s) (threads s) (returned s) (handled s + 1) in
          let l' := Local (at_ l) (pending l) None in
          let l' := if pending l then enter s' l' else l' in
          Process (signaled s') (mutex s') (upd (threads s') t l') (returned s') (handled s')
      | None =>
          let go sig m p ret := Process sig m (upd (threads s) t (Local p (pending l) None)) ret (handled s) in
          match at_ l with
          | Outside => match mutex s with
                       | None => go (signaled s) (Some t) Locked (returned s)
                       | Some _ => s
                       end
          | Locked => go (signaled s) (mutex s) Masked (returned s)
          | Masked => go (signaled s) (mutex s) (Loaded (signaled s)) (returned s)
          | Loaded v => go 0 (mutex s) (Cleared v) (returned s)
          | Cleared v =>
              let l' := Local (Unmasked v) (pending l) None in
              Process (signaled s) (mutex s) (upd (threads s) t (if pending l then enter s l' else l')) (returned s) (handled s)
          | Unmasked v => go (signaled s) None Outside (v :: returned s)
          end
      end
  end.
Definition acts (s : process) (l : list action) : process := fold_left act l s.
