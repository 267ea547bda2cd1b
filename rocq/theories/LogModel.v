(** Model of diminuto_log.c: the mask, the record that is composed, how it is written, and
    where it goes. Strings are the octets before the NUL. The environment, the file, the
    formatting by snprintf(3), the answers of write(2), and what is known of the process
    are arguments. Simplifications: errno, the names of the file and of the variable,
    syslog(3), the content of the header (time, host, priority, process and thread). *)

From Coq Require Import ZArith List Bool.
From Verif Require Import CUtil CInt NumberModel.
Import ListNotations.
Local Open Scope Z_scope.

(** inc/com/diag/diminuto/diminuto_log.h:92-105 DiminutoLogMask. *)
Definition MASK_ALL : Z := 255.
(** src/diminuto_log.c:91-126 diminuto_log_priority2mask. The priorities are those of
    syslog(3), 0 to 7. *)
Definition priority2mask (priority : Z) : Z :=
  if priority =? 0 then 128
  else if priority =? 1 then 64
  else if priority =? 2 then 32
  else if priority =? 3 then 16
  else if priority =? 4 then 8
  else if priority =? 5 then 4
  else if priority =? 6 then 2
  else if priority =? 7 then 1
  else MASK_ALL.
(** inc/com/diag/diminuto/diminuto_log.h:377-391 diminuto_log_mask_isenabled and
    diminuto_log_priority_isenabled, 578 DIMINUTO_LOG_ENABLED. *)
Definition mask_isenabled (log_mask mask : Z) : bool := negb (Z.land log_mask mask =? 0).
Definition priority_isenabled (log_mask priority : Z) : bool := mask_isenabled log_mask (priority2mask priority).

(** diminuto_log.h:319: DIMINUTO_LOG_MASK_VALUE_ALL, "~0". *)
Definition ALL : list Z := [126; 48].
(** strncmp(3) with the length of the second string, and with that and its NUL. *)
Fixpoint starts (s p : list Z) : bool :=
  match p, s with
  | [], _ => true
  | x :: p, y :: s => (x =? y) && starts s p
  | _, [] => false
  end.
Definition same (s p : list Z) : bool := starts s p && (length s =? length p)%nat.

(** src/diminuto_log.c:139-165 diminuto_log_setmask: the new mask. *)
Definition setmask (variable : option (list Z)) (mask : Z) : Z :=
  match variable with
  | None => mask
  | Some string =>
      if same string ALL then MASK_ALL
      else
        let '(value, end_) := strtoll string in
        if value <? 0 then mask
        else match end_ with [] => s32 value | _ => mask end
  end.

(** fgets(3) with a buffer of 81: what comes before it is full, and not after a newline. *)
Fixpoint fgets (n : nat) (l : list Z) : list Z :=
  match n, l with
  | S n, c :: l => if c =? 10 then [c] else c :: fgets n l
  | _, _ => []
  end.
(** src/diminuto_log.c:167-217 diminuto_log_importmask: the new mask; there is a file that
    can be opened, with these octets, or there is none. *)
Definition importmask (file : option (list Z)) (mask : Z) : Z :=
  match file with
  | None => mask
  | Some [] => mask
  | Some octets =>
      let buffer := fgets 80 octets in
      if starts buffer ALL then MASK_ALL
      else
        let '(value, end_) := strtoll buffer in
        if value <? 0 then mask
        else
          match end_ with
          | [] => s32 value
          | c :: _ => if (c =? 10) || (c =? 32) || (c =? 9) || (c =? 35) then s32 value else mask
          end
  end.

(** diminuto_log.h:274: DIMINUTO_LOG_BUFFER_MAXIMUM. *)
Definition BUFFER_MAXIMUM : Z := 8192.
(** src/diminuto_log.c:402-416 and 418-428: what snprintf(3) puts into the buffer. [buffer]
    is what is in it already; [text] is what there would be if there were room, or [None]
    if it fails. *)
Definition print (buffer : list Z) (text : option (list Z)) : list Z :=
  let space := BUFFER_MAXIMUM - Z.of_nat (length buffer) in
  match text with
  | None => buffer
  | Some text => if Z.of_nat (length text) >=? space then buffer ++ firstn (Z.to_nat (space - 1)) text else buffer ++ text
  end.
(** src/diminuto_log.c:402-437: the octets that are to be written. [None] is an access
    before the buffer. *)
Definition compose (header message : option (list Z)) : option (list Z) :=
  let buffer := print (print [] header) message in
  match buffer with
  | [] => None
  | _ =>
      if BUFFER_MAXIMUM - Z.of_nat (length buffer) <=? 1 then Some (removelast buffer ++ [10])
      else if negb (last buffer 0 =? 10) then Some (buffer ++ [10])
      else Some buffer
  end.

(** src/diminuto_log.c:451-479: one turn of the loop, given what write(2) returned and
    errno: what is left, by how much more is known to be lost, and whether the loop goes on.
    The comparison of [rc], an int, with [total], a size_t, is one of unsigned numbers. *)
Definition EINTR : Z := 4.
Definition turn (rest : list Z) (rc errno : Z) : list Z * Z * bool :=
  let total := Z.of_nat (length rest) in
  if rc =? 0 then (rest, 1, false)
  else if u64 rc >? total then (skipn (Z.to_nat total) rest, 0, true)
  else if rc >? 0 then (skipn (Z.to_nat rc) rest, 0, true)
  else if errno =? EINTR then (rest, 0, true)
  else (rest, 1, false).
(** What write(2) does, if it returns [rc]. *)
Definition wrote (rest : list Z) (rc : Z) : list Z := firstn (Z.to_nat rc) rest.
(** src/diminuto_log.c:451-479: the loop: what is written, what is counted as lost. The
    answers are used one by one; [None] if there are not enough of them. *)
Fixpoint write_loop (rest : list Z) (answers : list (Z * Z)) : option (list Z * Z) :=
  match rest with
  | [] => Some ([], 0)
  | _ =>
      match answers with
      | [] => None
      | (rc, errno) :: answers =>
          match turn rest rc errno with
          | (rest', lost, true) => let* '(out, lost') := write_loop rest' answers in Some (wrote rest rc ++ out, lost + lost')
          | (_, lost, false) => Some (wrote rest rc, lost)
          end
      end
  end.
(** src/diminuto_log.c:348-483 diminuto_log_vwrite, in one thread. *)
Definition vwrite (header message : option (list Z)) (answers : list (Z * Z)) : option (list Z * Z) :=
  let* record := compose header message in
  write_loop record answers.

(** src/diminuto_log.c:449-481, in many threads. Each has the records that it has yet to
    write; the one that has locked the mutex has one that is being written. *)
Record state := mkState {
  queues : nat -> list (list Z);
  holder : option (nat * list Z);
  output : list Z;
  lost : Z
}.
Inductive event :=
| Begin (i : nat)               (* Thread [i] locks the mutex, to write its next record. *)
| Turn (rc errno : Z)           (* The thread that has locked it calls write(2). *)
| End.                          (* It has nothing left to write, and unlocks it. *)
Definition set_queue (q : nat -> list (list Z)) (i : nat) (l : list (list Z)) : nat -> list (list Z) := fun j => if (j =? i)%nat then l else q j.
(** [None] if that cannot happen. *)
Definition step (s : state) (e : event) : option state :=
  match e, holder s with
  | Begin i, None =>
      match queues s i with
      | r :: l => Some (mkState (set_queue (queues s) i l) (Some (i, r)) (output s) (lost s))
      | [] => None
      end
  | Turn rc errno, Some (i, (x :: r) as rest) =>
      match turn rest rc errno with
      | (rest', n, true) => Some (mkState (queues s) (Some (i, rest')) (output s ++ wrote rest rc) (lost s + n))
      | (rest', n, false) => Some (mkState (queues s) None (output s ++ wrote rest rc) (lost s + n))
      end
  | End, Some (i, []) => Some (mkState (queues s) None (output s) (lost s))
  | _, _ => None
  end.
Fixpoint run (s : state) (l : list event) : option state :=
  match l with
  | [] => Some s
  | e :: l => let* s := step s e in run s l
  end.
Definition start (q : nat -> list (list Z)) : state := mkState q None [] 0.

(** src/diminuto_log.c:489-560 diminuto_log_vlog: where a record goes, and whether that is
    remembered. diminuto_log.h:332-337 has the strategies 'A', 'E', 'S', 'X'. [isfile]: the
    descriptor is one of a file; [leader]: the process leads its session; [orphan]: its
    parent is init. Lines 242-250: what diminuto_log_open_syslog remembers. *)
Inductive destination := Nowhere | Descriptor | Syslog.
Definition open_syslog (cached leader orphan : bool) : bool :=
  if cached then cached else if leader then true else if orphan then true else cached.
Definition vlog (strategy : Z) (cached isfile leader orphan : bool) : destination * bool :=
  let '(to, cached) :=
    if strategy =? 88 then (Nowhere, cached)
    else if strategy =? 69 then (Descriptor, cached)
    else if strategy =? 83 then (Syslog, cached)
    else if negb (strategy =? 65) then (Syslog, cached)
    else if cached then (Syslog, cached)
    else if isfile then (Descriptor, cached)
    else if leader then (Syslog, true)
    else if orphan then (Syslog, true)
    else (Descriptor, false) in
  match to with
  | Syslog => (to, open_syslog cached leader orphan)
  | _ => (to, cached)
  end.
(** One call after the other, with one strategy, as the process changes: where each goes. *)
Fixpoint vlogs (strategy : Z) (cached : bool) (l : list (bool * bool * bool)) : list destination :=
  match l with
  | [] => []
  | (isfile, leader, orphan) :: l => let '(to, cached) := vlog strategy cached isfile leader orphan in to :: vlogs strategy cached l
  end.
