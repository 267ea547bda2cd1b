(** Model of diminuto_thread.c: one thread object, the thread that runs its function, and
    any number of callers.

    A step is what one thread does between locking and unlocking the object's mutex, or one
    system call, or one access outside of the mutex. Simplifications: locking, unlocking and
    signalling do not fail, nor does waiting other than by timing out; setting up the thread
    (src/diminuto_thread.c:87-95) does not fail; a signal is delivered. *)

From Coq Require Import ZArith List Bool Arith.
From Verif Require Import CUtil CInt.
Import ListNotations.
Local Open Scope Z_scope.

(** inc/com/diag/diminuto/diminuto_thread.h:79-89 diminuto_thread_state_t. *)
Inductive status := INITIALIZED | STARTED | RUNNING | EXITING | JOINED | FINALIZED | FAILED.
Definition is (a b : status) : bool :=
  match a, b with
  | INITIALIZED, INITIALIZED | STARTED, STARTED | RUNNING, RUNNING | EXITING, EXITING | JOINED, JOINED | FINALIZED, FINALIZED | FAILED, FAILED => true
  | _, _ => false
  end.
(** inc/com/diag/diminuto/diminuto_thread.h:57-61, diminuto_mutex.h:36: EIO and ETIMEDOUT. *)
Definition ERROR : Z := 5.
Definition TIMEDOUT : Z := 110.
(** src/diminuto_thread.c:205, 408: the value before there is one. *)
Definition NOVALUE : Z := 18446744073709551615.

(** How a function ends: it returns, it calls diminuto_thread_exit, or it calls
    pthread_exit (or is cancelled), which Diminuto does not see. *)
Inductive way := Return | Exit | Native.
(** Where a thread is in proxy (src/diminuto_thread.c:76-114): before line 96, before line
    109, in the function, past the function but before line 50 (proxy_cleanup), the same a
    second time (line 370 and then as a cleanup handler of the thread), past both, or
    terminated and to be joined, with its value. *)
Inductive stage :=
  | Created | Ready | Inside | Leaving (how : way) (v : Z) | Again (v : Z) | Left (how : way) (v : Z) | Dead (v : Z).
Record worker := Worker { handle : Z; at_ : stage }.
(** Where a caller is in diminuto_thread_join_until (src/diminuto_thread.c:477-591): not in
    it; asleep on the condition (501, 513) or woken from it and not yet in the mutex again;
    before line 544; in pthread_join (549) on a handle; before line 552 with the value;
    before line 572. [me] is the caller's own handle. *)
Inductive place :=
  | Out
  | Asleep (me : Z) (timed : bool) | Awake (me : Z) (timed : bool)
  | Look (rc me : Z) | InJoin (me target : Z) | Reaped (me v : Z) | Last (rc me : Z).
(** inc/com/diag/diminuto/diminuto_thread.h:94-105 diminuto_thread_t (the function and the
    scheduling left out), the thread it started if that has not been joined, and the
    callers. [notify] is whether there is a signal to send. *)
Record world := World {
  state : status; context : Z; value : Z; notifications : Z; thread : Z; notify : bool;
  current : option worker; callers : nat -> place }.
Definition set_state (w : world) (s : status) := World s (context w) (value w) (notifications w) (thread w) (notify w) (current w) (callers w).
Definition set_value (w : world) (v : Z) := World (state w) (context w) v (notifications w) (thread w) (notify w) (current w) (callers w).
Definition set_count (w : world) (n : Z) := World (state w) (context w) (value w) n (thread w) (notify w) (current w) (callers w).
Definition set_current (w : world) (o : option worker) := World (state w) (context w) (value w) (notifications w) (thread w) (notify w) o (callers w).
Definition go (w : world) (i : nat) (p : place) :=
  World (state w) (context w) (value w) (notifications w) (thread w) (notify w) (current w) (fun j => if Nat.eqb j i then p else callers w j).
(** src/diminuto_condition.c:100-117 diminuto_condition_signal: a broadcast. *)
Definition woken (p : place) : place := match p with Asleep me timed => Awake me timed | _ => p end.
Definition signal (w : world) :=
  World (state w) (context w) (value w) (notifications w) (thread w) (notify w) (current w) (fun j => woken (callers w j)).

(** src/diminuto_thread.c:189-251 diminuto_thread_init_base. *)
Definition initial (signals : bool) (h : Z) : world := World INITIALIZED 0 NOVALUE 0 h signals None (fun _ => Out).

(** What threads do, with what the system does about it; and what is to be seen of it. *)
Inductive action :=
  | Start (c : Z) (handler : bool) (create : option Z) | Notify | JoinBegin (i : nat) (me : Z) (timed : bool) | JoinStep (i : nat) | Spurious (i : nat) | Timeout (i : nat)
  | Fini | GetState
  | WorkerRun | WorkerCall | WorkerTake | WorkerEnd (how : way) (v : Z) | WorkerLeave | WorkerDie.
Inductive event :=
  | Silent
  | Started (c : Z) (h : Z) | NotStarted (changed : bool)
  | Notified (target : option Z) | NotNotified
  | Joins (i : nat) (me : Z) (timed : bool) | JoinDone (v : Z) | JoinReturns (i : nat) (rc : Z) (v : option Z)
  | Finalized (ok : bool) | Is (s : status)
  | Runs | Called (c : Z) | Took (n : Z) | Ended (v : Z) | Leaves | Dies (h : Z) (v : Z).
Inductive outcome := Does (w : world) (e : event) | Disabled | Undefined.

(** src/diminuto_thread.c:380-429 diminuto_thread_start. [handler] is whether sigaction
    succeeds, [create] the handle from pthread_create if that does. A handle in use is not
    given out again. *)
Definition start (w : world) (c : Z) (handler : bool) (create : option Z) : outcome :=
  match state w with
  | FINALIZED => Undefined
  | INITIALIZED | JOINED | FAILED =>
      if notify w && negb handler then Does w (NotStarted false)
      else
        match create with
        | None => Does (signal (World FAILED c NOVALUE 0 (thread w) (notify w) (current w) (callers w))) (NotStarted true)
        | Some h =>
            if match current w with Some k => Z.eqb (handle k) h | None => false end then Disabled
            else Does (signal (World STARTED c NOVALUE 0 h (notify w) (Some (Worker h Created)) (callers w))) (Started c h)
        end
  | _ => Does w (NotStarted false)
  end.
(** src/diminuto_thread.c:431-475 diminuto_thread_notify. The count is a 32 bit signed
    integer (diminuto_thread.h:104), which is compared with the largest unsigned one (line
    445); to increment the largest signed one is undefined. To signal a thread that is not
    there is undefined. *)
Definition do_notify (w : world) : outcome :=
  match state w with
  | FINALIZED => Undefined
  | STARTED | RUNNING =>
      let count := if Z.eqb (notifications w) (-1) then Some (notifications w) else ck_s32 (notifications w + 1) in
      match count with
      | None => Undefined
      | Some n =>
          let w := signal (set_count w n) in
          if notify w then
            match current w with
            | Some k => if Z.eqb (handle k) (thread w) then match at_ k with Dead _ => Undefined | _ => Does w (Notified (Some (thread w))) end else Undefined
            | None => Undefined
            end
          else Does w (Notified None)
      end
  | _ => Does w NotNotified
  end.
(** src/diminuto_thread.c:477-538 diminuto_thread_join_until, the first part. *)
Definition join_begin (w : world) (i : nat) (me : Z) (timed : bool) : outcome :=
  match callers w i with
  | Out =>
      match state w with
      | FINALIZED => Undefined
      | STARTED | RUNNING => Does (go w i (if Z.eqb me (thread w) then Look ERROR me else Asleep me timed)) (Joins i me timed)
      | _ => Does (go w i (Look ERROR me)) (Joins i me timed)
      end
  | _ => Disabled
  end.
(** src/diminuto_thread.c:500-590, the rest. To join a thread that is not there is undefined
    (pthread_join(3)). That the state and the value are read one after the other (572, 578)
    is not modelled. *)
Definition join_step (w : world) (i : nat) : outcome :=
  match callers w i with
  | Out | Asleep _ _ => Disabled
  | Awake me timed => Does (go w i (if is (state w) EXITING then Look 0 me else Asleep me timed)) Silent
  | Look rc me =>
      if is (state w) EXITING then Does (go w i (if Z.eqb me (thread w) then Last ERROR me else InJoin me (thread w))) Silent
      else Does (go w i (Last rc me)) Silent
  | InJoin me target =>
      match current w with
      | Some k => if Z.eqb (handle k) target then match at_ k with Dead v => Does (go (set_current w None) i (Reaped me v)) Silent | _ => Disabled end else Undefined
      | None => Undefined
      end
  | Reaped me v => Does (signal (go (set_value (set_state w JOINED) v) i (Last 0 me))) (JoinDone v)
  | Last rc me =>
      if is (state w) JOINED
      then if Z.eqb me (thread w) then Does (go w i Out) (JoinReturns i ERROR None) else Does (go w i Out) (JoinReturns i 0 (Some (value w)))
      else Does (go w i Out) (JoinReturns i rc None)
  end.
(** A wait may end without a signal (pthread_cond_wait(3)), or at its time (513-516). *)
Definition spurious (w : world) (i : nat) : outcome :=
  match callers w i with Asleep me timed => Does (go w i (Awake me timed)) Silent | _ => Disabled end.
Definition timeout (w : world) (i : nat) : outcome :=
  match callers w i with Asleep me true | Awake me true => Does (go w i (Look TIMEDOUT me)) Silent | _ => Disabled end.
(** src/diminuto_thread.c:253-282 diminuto_thread_fini. The condition's own finalization
    does not fail. *)
Definition fini (w : world) : outcome :=
  match state w with
  | INITIALIZED | JOINED | FAILED => Does (signal (set_state w FINALIZED)) (Finalized true)
  | FINALIZED => Does w (Finalized true)
  | _ => Does w (Finalized false)
  end.
(** src/diminuto_thread.c:288-305 diminuto_thread_state. *)
Definition get_state (w : world) : outcome := Does w (Is (state w)).

(** src/diminuto_thread.c:76-114 proxy, 50-63 proxy_cleanup, 364-374 diminuto_thread_exit,
    343-362 diminuto_thread_notifications (called by the thread itself), and the kernel
    terminating the thread with its value. A function that returns leaves its value in the
    object, and proxy returns what it finds there (109, 113). *)
Definition work (w : world) (k : worker) (a : action) : outcome :=
  let to w s := set_current w (Some (Worker (handle k) s)) in
  match a, at_ k with
  | WorkerRun, Created => Does (signal (to (set_state w RUNNING) Ready)) Runs
  | WorkerCall, Ready => Does (to w Inside) (Called (context w))
  | WorkerTake, Inside => Does (signal (set_count w 0)) (Took (u32 (notifications w)))
  | WorkerEnd how v, Inside => Does (to (match how with Native => w | _ => set_value w v end) (Leaving how v)) (Ended v)
  | WorkerLeave, Leaving how v => Does (signal (to (set_state w EXITING) (match how with Exit => Again v | _ => Left how v end))) Leaves
  | WorkerLeave, Again v => Does (signal (to (set_state w EXITING) (Left Exit v))) Leaves
  | WorkerDie, Left how v => let v := match how with Return => value w | _ => v end in Does (to w (Dead v)) (Dies (handle k) v)
  | _, _ => Disabled
  end.

Definition step (w : world) (a : action) : outcome :=
  match a with
  | Start c handler create => start w c handler create
  | Notify => do_notify w
  | JoinBegin i me timed => join_begin w i me timed
  | JoinStep i => join_step w i
  | Spurious i => spurious w i
  | Timeout i => timeout w i
  | Fini => fini w
  | GetState => get_state w
  | _ => match current w with Some k => work w k a | None => Disabled end
  end.
(** A whole execution: None if it is not one. *)
Fixpoint run (w : world) (l : list action) : option (world * list event) :=
  match l with
  | [] => Some (w, [])
  | a :: l => match step w a with Does w e => let* '(w, es) := run w l in Some (w, e :: es) | _ => None end
  end.
