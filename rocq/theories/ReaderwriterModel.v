(** Model of diminuto_readerwriter.c: a lock for many readers or one writer, with a
    queue of waiting threads, time outs and priorities.

    Each function of the library runs with the mutex of the object held, except while
    it waits for a condition variable. So a step of the model is what a thread does from
    acquiring the mutex (by calling a function, or by returning from
    pthread_cond_wait(3) or pthread_cond_timedwait(3)) to releasing it (by returning
    to the application, or by waiting), and an execution is any interleaving of such
    steps. [None] is undefined behaviour or a violated contract, which aborts.

    Not modelled: failures of pthread_mutex_lock(3) and pthread_cond_broadcast(3), the
    output for debugging, and more than one object. *)

From Coq Require Import ZArith List Bool.
From Verif Require Import CInt CUtil.
Import ListNotations.
Local Open Scope Z_scope.

(** src/diminuto_readerwriter.h:28-39 diminuto_readerwriter_role_t. *)
Inductive role := NONE | ANY | STARTED | READER | WRITER | FAILED | READABLE | WRITABLE | RUNNING.
Definition role_eqb (a b : role) : bool :=
  match a, b with
  | NONE, NONE | ANY, ANY | STARTED, STARTED | READER, READER | WRITER, WRITER | FAILED, FAILED
  | READABLE, READABLE | WRITABLE, WRITABLE | RUNNING, RUNNING => true
  | _, _ => false
  end.

(** inc/com/diag/diminuto/diminuto_readerwriter.h:128-138 diminuto_readerwriter_t. A
    thread is a number, and so is its node (readerwriter.c:330-352 acquire: each thread
    has one node of its own, in thread specific data). The queue is the sequence of the
    nodes in the list (that diminuto_list.c implements such sequences is C14 and C15),
    [data] the data of each node. [waits]: the threads that are waiting, the condition
    variable (READER for reader, WRITER for writer), and whether it has been broadcast
    since. *)
Record rw := Rw {
  queue : list Z; data : Z -> role; waiting : Z; maximum : Z; reading : Z; writing : Z; debugging : bool;
  waits : Z -> option (role * bool)
}.
Definition with_queue v s := Rw v (data s) (waiting s) (maximum s) (reading s) (writing s) (debugging s) (waits s).
Definition with_data v s := Rw (queue s) v (waiting s) (maximum s) (reading s) (writing s) (debugging s) (waits s).
Definition with_waiting v s := Rw (queue s) (data s) v (maximum s) (reading s) (writing s) (debugging s) (waits s).
Definition with_maximum v s := Rw (queue s) (data s) (waiting s) v (reading s) (writing s) (debugging s) (waits s).
Definition with_reading v s := Rw (queue s) (data s) (waiting s) (maximum s) v (writing s) (debugging s) (waits s).
Definition with_writing v s := Rw (queue s) (data s) (waiting s) (maximum s) (reading s) v (debugging s) (waits s).
Definition with_debugging v s := Rw (queue s) (data s) (waiting s) (maximum s) (reading s) (writing s) v (waits s).
Definition with_waits v s := Rw (queue s) (data s) (waiting s) (maximum s) (reading s) (writing s) (debugging s) v.
Definition set {A} (f : Z -> A) (t : Z) (v : A) : Z -> A := fun x => if x =? t then v else f x.

(** diminuto_list_dataset of a node. *)
Definition dataset (s : rw) (t : Z) (r : role) : rw := with_data (set (data s) t r) s.

(** readerwriter.c:358-384 diminuto_readerwriter_init, and readerwriter.h:147-158
    DIMINUTO_READERWRITER_INITIALIZER. Nodes begin as STARTED (readerwriter.c:342). *)
Definition init : rw := Rw [] (fun _ => STARTED) 0 0 0 0 false (fun _ => None).

(** readerwriter.c:136-155 front: what is before the node found, and the rest. *)
Fixpoint front (data : Z -> role) (q : list Z) : list Z * list Z :=
  match q with
  | [] => ([], [])
  | t :: q' =>
    if role_eqb (data t) READER then ([], q)
    else if role_eqb (data t) WRITER then ([], q)
    else if role_eqb (data t) FAILED then ([], q)
    else let '(a, b) := front data q' in (t :: a, b)
  end.

(** readerwriter.c:163-168 enqueue. *)
Definition enqueue (s : rw) (t : Z) (priority : bool) : option rw :=
  let* w := ck_s32 (waiting s + 1) in
  let s := with_waiting w s in
  let s := if maximum s <? waiting s then with_maximum (waiting s) s else s in
  Some (if priority then let '(a, b) := front (data s) (queue s) in with_queue (a ++ t :: b) s
        else with_queue (queue s ++ [t]) s).

(** readerwriter.c:175-179 dequeue. Removing a node that is in no list leaves the list
    alone. *)
Definition dequeue (s : rw) (t : Z) : option rw :=
  let s := with_queue (filter (fun x => negb (x =? t)) (queue s)) s in
  let* w := ck_s32 (waiting s - 1) in Some (with_waiting w s).

(** readerwriter.c:190-193 ready. *)
Definition ready (s : rw) (t : Z) (pending : role) : bool := role_eqb (data s t) pending.

(** readerwriter.c:204-214 head: the loop takes at most as many iterations as there are
    nodes in the queue. *)
Fixpoint head_from (n : nat) (s : rw) : option (rw * option Z) :=
  match queue s with
  | [] => Some (s, None)
  | t :: _ =>
    if role_eqb (data s t) FAILED then
      match n with O => None | S n => let* s := dequeue s t in head_from n s end
    else Some (s, Some t)
  end.
Definition head (s : rw) : option (rw * option Z) := head_from (length (queue s)) s.

(** readerwriter.c:425-571 audit, called if debugging. (What diminuto_list_audit finds
    in the list is C14.) *)
Definition audit (s : rw) : option unit :=
  if (0 <=? reading s) && (0 <=? writing s) && (0 <=? waiting s) && (0 <=? maximum s) && (waiting s <=? maximum s)
     && (Z.of_nat (length (queue s)) =? waiting s)
     && forallb (fun t => role_eqb (data s t) READER || role_eqb (data s t) WRITER || role_eqb (data s t) FAILED) (queue s)
  then Some tt else None.
Definition audit_if (s : rw) : option unit := if debugging s then audit s else Some tt.
(** inc/com/diag/diminuto/diminuto_assert.h:63 diminuto_contract. *)
Definition contract (b : bool) : option unit := if b then Some tt else None.

(** What happens that an application can tell: a call begins to wait for a role, with or
    without priority; the lock is given to a waiting thread; a call to begin returns a
    result; a call to end returns; and the results of the other two functions. *)
Inductive event :=
  | Waits (t : Z) (r : role) (priority : bool)
  | Grants (t : Z) (r : role)
  | Begun (t : Z) (r : role) (result : Z)
  | Ended (t : Z) (r : role) (result : Z)
  | Debugged (v : Z)
  | Maximal (v : Z).

(** pthread_cond_broadcast(3). *)
Definition broadcast (s : rw) (c : role) : rw :=
  with_waits (fun t => match waits s t with Some (c', w) => Some (c', w || role_eqb c c') | None => None end) s.

(** readerwriter.c:776-857 resume: the loop, which yields the condition variable, the
    result and the threads the lock is given to. *)
Fixpoint resume_loop (n : nat) (s : rw) (required : role) (cp : option role) (result : role) (l : list event)
    : option (rw * option role * role * list event) :=
  let* '(s, h) := head s in
  match h with
  | None => Some (s, cp, result, l)
  | Some t =>
    let r := data s t in
    if role_eqb r READER && (role_eqb required READER || role_eqb required ANY) then
      let* s := dequeue s t in
      let s := dataset s t READABLE in
      let* v := ck_s32 (reading s + 1) in
      let s := with_reading v s in
      match n with
      | O => None
      | S n => resume_loop n s r (Some READER) r (l ++ [Grants t READER])
      end
    else if role_eqb r WRITER && (role_eqb required WRITER || role_eqb required ANY) then
      let* s := dequeue s t in
      let s := dataset s t WRITABLE in
      let s := with_writing (s8 (writing s + 1)) s in
      Some (s, Some WRITER, r, l ++ [Grants t WRITER])
    else Some (s, cp, result, l)
  end.
Definition resume (s : rw) (required : role) : option (rw * role * list event) :=
  let* '(s, cp, result, l) := resume_loop (length (queue s)) s required None NONE [] in
  Some (match cp with Some c => broadcast s c | None => s end, result, l).

(** readerwriter.c:743-767 suspend and 677-728 schedule up to the wait in 590-656
    satisfy: the roles, and the condition variable. *)
Definition pend (r : role) : role := if role_eqb r READER then READABLE else WRITABLE.
(** readerwriter.c:710-723 the end of schedule, after satisfy has returned [rc]. *)
Definition scheduled (s : rw) (t : Z) (rc : Z) : option (rw * Z) :=
  let* '(s, rc) :=
    if negb (rc =? 0) then
      if role_eqb (data s t) READABLE then Some (s, 0)
      else if role_eqb (data s t) WRITABLE then Some (s, 0)
      else let* s := dequeue s t in Some (s, rc)
    else Some (s, rc) in
  Some (dataset s t RUNNING, rc).

(** The end of begin, after suspend (readerwriter.c:902-942, 1069-1109): if [rc] is zero
    it succeeded. *)
Definition begun (s : rw) (t : Z) (r : role) (result : Z) : option (rw * list event) :=
  let* _ := audit_if s in
  let* _ := contract (if role_eqb r READER
    then ((result =? 0) && (0 <? reading s) && (writing s =? 0) && (0 <=? waiting s)) || (result <? 0)
    else ((result =? 0) && (reading s =? 0) && (writing s =? 1) && (0 <=? waiting s)) || (result <? 0)) in
  Some (s, [Begun t r result]).

(** A timeout (readerwriter.h:94-100): none at all, none ever, and one, for which the
    clock must be read first, which may fail. *)
Inductive timeout := POLL | INFINITY | TICKS (clock : bool).

(** readerwriter.c:863-943 diminuto_reader_begin_f, 1030-1110 diminuto_writer_begin_f,
    up to the wait or the end. [node]: acquire (330-352) yields a node. (The error of
    the clock is any number that is not zero.) *)
Definition begin (s : rw) (t : Z) (r : role) (to : timeout) (priority node : bool) : option (rw * list event) :=
  if negb node then Some (s, [Begun t r (-1)])
  else
    let* '(s, free) :=
      if (if role_eqb r READER then writing s <=? 0 else (reading s <=? 0) && (writing s <=? 0))
      then let* '(s, h) := head s in Some (s, match h with None => true | Some _ => false end)
      else Some (s, false) in
    if free then
      if role_eqb r READER then let* v := ck_s32 (reading s + 1) in begun (with_reading v s) t r 0
      else begun (with_writing (s8 (writing s + 1)) s) t r 0
    else
      match to with
      | POLL => begun s t r (-1)
      | INFINITY | TICKS true =>
        let* s := enqueue (dataset s t r) t priority in
        Some (with_waits (set (waits s) t (Some (r, false))) s, [Waits t r priority])
      | TICKS false =>
        let* s := enqueue (dataset s t r) t priority in
        let* '(s, rc) := scheduled s t 5 in
        let* '(s, l) := begun s t r (if rc =? 0 then 0 else -1) in
        Some (s, Waits t r priority :: l)
      end.

(** readerwriter.c:603-609, 637-649: pthread_cond_wait(3) or pthread_cond_timedwait(3)
    returns [rc] in a waiting thread: because of a broadcast, spuriously, because of the
    time out, or with an error. *)
Definition wake (s : rw) (t : Z) (rc : Z) : option (rw * list event) :=
  match waits s t with
  | None => None
  | Some (r, _) =>
    if (rc =? 0) && negb (ready s t (pend r)) then Some (with_waits (set (waits s) t (Some (r, false))) s, [])
    else
      let s := with_waits (set (waits s) t None) s in
      let* '(s, rc) := scheduled s t rc in
      begun s t r (if rc =? 0 then 0 else -1)
  end.

(** The contract at the end of end (readerwriter.c:1023, 1179). *)
Definition end_contract (s : rw) : bool :=
  ((0 <? reading s) && (writing s =? 0) && (0 <=? waiting s)) ||
  ((reading s =? 0) && (writing s =? 1) && (0 <=? waiting s)) ||
  ((reading s =? 0) && (writing s =? 0) && (waiting s =? 0)).

(** readerwriter.c:945-1028 diminuto_reader_end. *)
Definition reader_end (s : rw) (t : Z) : option (rw * list event) :=
  let* _ := contract ((0 <? reading s) && (writing s =? 0)) in
  let* v := ck_s32 (reading s - 1) in
  let s := with_reading v s in
  let* '(s, result, l) :=
    if 0 <? reading s then Some (s, 0, [])
    else
      let* '(s, role, l) := resume s ANY in
      Some (s, if role_eqb role NONE then 0 else if role_eqb role READER then 0 else if role_eqb role WRITER then 0 else -1, l) in
  let* _ := audit_if s in
  let* _ := contract (end_contract s) in
  Some (s, l ++ [Ended t READER result]).

(** readerwriter.c:1112-1184 diminuto_writer_end. *)
Definition writer_end (s : rw) (t : Z) : option (rw * list event) :=
  let* _ := contract ((reading s =? 0) && (writing s =? 1)) in
  let s := with_writing (s8 (writing s - 1)) s in
  let* '(s, role, l) := resume s ANY in
  let result := if role_eqb role NONE then 0 else if role_eqb role READER then 0 else if role_eqb role WRITER then 0 else -1 in
  let* _ := audit_if s in
  let* _ := contract (end_contract s) in
  Some (s, l ++ [Ended t WRITER result]).

(** readerwriter.c:1208-1220 diminuto_readerwriter_debug, 1222-1234
    diminuto_readerwriter_maximum. *)
Definition debug (s : rw) (v : bool) : option (rw * list event) :=
  Some (with_debugging v s, [Debugged (if debugging s then 1 else 0)]).
Definition take_maximum (s : rw) : option (rw * list event) :=
  Some (with_maximum (waiting s) s, [Maximal (maximum s)]).

(** The steps. *)
Inductive act :=
  | Begin (t : Z) (r : role) (to : timeout) (priority node : bool)
  | Wake (t : Z) (rc : Z)
  | End (t : Z) (r : role)
  | Debug (v : bool)
  | Maximum.
Definition step (s : rw) (a : act) : option (rw * list event) :=
  match a with
  | Begin t r to priority node => begin s t r to priority node
  | Wake t rc => wake s t rc
  | End t r => if role_eqb r READER then reader_end s t else writer_end s t
  | Debug v => debug s v
  | Maximum => take_maximum s
  end.

(** readerwriter.c:255-279 wait_cleanup, run when a waiting thread is cancelled, after
    pthread_cond_wait(3) has acquired the mutex again. If the node of the thread is in
    the list, wait_cleanup acquires the mutex it already has, and so never returns
    (the mutex is not a recursive one): [None]. Otherwise the thread releases the mutex
    (224-233 mutex_cleanup) and is gone. *)
Definition cancel (s : rw) (t : Z) : option rw :=
  if existsb (Z.eqb t) (queue s) then None else Some (with_waits (set (waits s) t None) s).
