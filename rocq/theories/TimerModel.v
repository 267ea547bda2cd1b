(** Model of diminuto_timer.c: a timer object with a function, the kernel's timer, the
    threads in which the kernel's timer calls the function (one for each expiration), and
    any number of callers.

    A step is what one thread does between locking and unlocking the object's mutex, or one
    system call, or a group of accesses outside of the mutex. Simplifications: locking,
    signalling, setting and deleting the kernel's timer do not fail, nor does waiting other
    than by timing out; when the timer expires is left open. *)

From Coq Require Import ZArith List Bool Arith.
From Verif Require Import CUtil CInt.
Import ListNotations.
Local Open Scope Z_scope.

(** inc/com/diag/diminuto/diminuto_timer.h:70-75 diminuto_timer_state_t. *)
Inductive status := IDLE | ARM | DISARM.
Definition is (a b : status) : bool := match a, b with IDLE, IDLE | ARM, ARM | DISARM, DISARM => true | _, _ => false end.

(** Where a thread of the timer is in proxy (src/diminuto_timer.c:37-89): there is none (or
    it is past line 86); before line 47; between line 54 and line 63, with the context if it
    is to call the function; in the function; before line 66. *)
Inductive phase := Nobody | New | Holding (c : option Z) | Inside (c : Z) | After.
(** Where a caller is: in neither function; in diminuto_timer_start (253-281) before line
    274, with whether the time is not zero; in diminuto_timer_stop (283-321) asleep on the
    condition (297), or woken from it and not yet in the mutex again; before line 312, with
    whether the wait did not time out. *)
Inductive place := Out | Setting (positive : bool) | Asleep | Awake | Ending (ok : bool).
(** inc/com/diag/diminuto/diminuto_timer.h:81-96 diminuto_timer_t, as far as it matters
    here; whether the kernel's timer is armed; whether it was deleted. *)
Record world := World {
  state : status; context : Z; periodic : bool; armed : bool; deleted : bool; threads : nat -> phase; callers : nat -> place }.
Definition set_state (w : world) (s : status) := World s (context w) (periodic w) (armed w) (deleted w) (threads w) (callers w).
Definition set_armed (w : world) (a : bool) := World (state w) (context w) (periodic w) a (deleted w) (threads w) (callers w).
Definition go (w : world) (i : nat) (p : place) :=
  World (state w) (context w) (periodic w) (armed w) (deleted w) (threads w) (fun j => if Nat.eqb j i then p else callers w j).
Definition move (w : world) (t : nat) (p : phase) :=
  World (state w) (context w) (periodic w) (armed w) (deleted w) (fun j => if Nat.eqb j t then p else threads w j) (callers w).
(** src/diminuto_condition.c:100-117 diminuto_condition_signal: a broadcast. *)
Definition woken (p : place) : place := match p with Asleep => Awake | _ => p end.
Definition signal (w : world) := World (state w) (context w) (periodic w) (armed w) (deleted w) (threads w) (fun j => woken (callers w j)).

(** src/diminuto_timer.c:129-226 diminuto_timer_init_base, with a function. *)
Definition initial (p : bool) : world := World IDLE 0 p false false (fun _ => Nobody) (fun _ => Out).

Inductive action :=
  | Start (i : nat) (c ticks : Z) | Stop (i : nat) | Step (i : nat) | Spurious (i : nat) | Timeout (i : nat) | GetState | Fini
  | Expire (t : nat) | Proceed (t : nat).
Inductive event :=
  | Silent | Starts (i : nat) (c : Z) | StartReturns (i : nat) | Stops (i : nat) | StopReturns (i : nat) (ok : bool) | Is (s : status) | Ends
  | Expires | Calls (c : Z) | Returns (c : Z).
Inductive outcome := Does (w : world) (e : event) | Disabled | Undefined.

(** src/diminuto_timer.c:253-272 diminuto_timer_start as far as the system call. A
    simplification: the assignments are one step. *)
Definition start (w : world) (i : nat) (c ticks : Z) : outcome :=
  if deleted w then Undefined
  else
    match callers w i with
    | Out => Does (go (World ARM c (periodic w) (armed w) (deleted w) (threads w) (callers w)) i (Setting (Z.ltb 0 ticks))) (Starts i c)
    | _ => Disabled
    end.
(** src/diminuto_timer.c:283-307 diminuto_timer_stop as far as the wait. *)
Definition stop (w : world) (i : nat) : outcome :=
  if deleted w then Undefined
  else
    match callers w i with
    | Out => if is (state w) ARM then Does (go (set_state w DISARM) i Asleep) (Stops i) else Does (go w i (Ending true)) (Stops i)
    | _ => Disabled
    end.
(** src/diminuto_timer.c:274-280 (to set a time of zero disarms), 302, 309-320. *)
Definition next (w : world) (i : nat) : outcome :=
  match callers w i with
  | Out | Asleep => Disabled
  | Setting positive => if deleted w then Undefined else Does (go (set_armed w positive) i Out) (StartReturns i)
  | Awake => if deleted w then Undefined else Does (go w i (if is (state w) IDLE then Ending true else Asleep)) Silent
  | Ending ok => if deleted w then Undefined else Does (go (set_armed w false) i Out) (StopReturns i ok)
  end.
(** A wait may end without a signal (pthread_cond_wait(3)), or at its time (297-301). *)
Definition spurious (w : world) (i : nat) : outcome := match callers w i with Asleep => Does (go w i Awake) Silent | _ => Disabled end.
Definition timeout (w : world) (i : nat) : outcome := match callers w i with Asleep | Awake => Does (go w i (Ending false)) Silent | _ => Disabled end.
(** src/diminuto_timer.c:102-111 diminuto_timer_state. *)
Definition get_state (w : world) : outcome := if deleted w then Undefined else Does w (Is (state w)).
(** src/diminuto_timer.c:228-251 diminuto_timer_fini. *)
Definition fini (w : world) : outcome :=
  if deleted w then Undefined else Does (World (state w) (context w) (periodic w) false true (threads w) (callers w)) Ends.

(** The kernel's timer expires, and has a new thread call proxy; unless it is periodic
    (265-270) it is then disarmed. *)
Definition expire (w : world) (t : nat) : outcome :=
  match threads w t with
  | Nobody => if armed w then Does (move (set_armed w (periodic w)) t New) Expires else Disabled
  | _ => Disabled
  end.
(** src/diminuto_timer.c:47-86 proxy. *)
Definition proceed (w : world) (t : nat) : outcome :=
  match threads w t with
  | Nobody => Disabled
  | New => if deleted w then Undefined else Does (move w t (Holding (if is (state w) ARM then Some (context w) else None))) Silent
  | Holding (Some c) => Does (move w t (Inside c)) (Calls c)
  | Holding None => Does (move w t After) Silent
  | Inside c => Does (move w t After) (Returns c)
  | After =>
      if deleted w then Undefined
      else if periodic w then
        if is (state w) DISARM then Does (signal (move (set_state w IDLE) t Nobody)) Silent else Does (move w t Nobody) Silent
      else
        if negb (is (state w) IDLE) then Does (signal (move (set_state w IDLE) t Nobody)) Silent else Does (move w t Nobody) Silent
  end.

Definition step (w : world) (a : action) : outcome :=
  match a with
  | Start i c ticks => start w i c ticks
  | Stop i => stop w i
  | Step i => next w i
  | Spurious i => spurious w i
  | Timeout i => timeout w i
  | GetState => get_state w
  | Fini => fini w
  | Expire t => expire w t
  | Proceed t => proceed w t
  end.
(** A whole execution: None if it is not one. *)
Fixpoint run (w : world) (l : list action) : option (world * list event) :=
  match l with
  | [] => Some (w, [])
  | a :: l => match step w a with Does w e => let* '(w, es) := run w l in Some (w, e :: es) | _ => None end
  end.

(** src/diminuto_timer.h:38-51 diminuto_timer_window: how long diminuto_timer_stop waits
    (diminuto_frequency() is 10^9, as cited in TimeModel). *)
Definition window (interval : Z) : Z := let result := u64 (interval * 2) in if Z.ltb result 1000000000 then 1000000000 else result.
(** src/diminuto_timer.c:294: until when, by a clock of [now]. *)
Definition deadline (now interval : Z) : Z := u64 (now + window interval).

(** src/diminuto_timer.c:329-359 diminuto_timer_setitimer: the singleton, once initialized
    periodic or not; what the kernel's timer is set to (value and interval, in nanoseconds,
    lines 262-270, 309-312). The interval is left as it was when the value is set to zero. *)
Record singleton := Singleton { once : option bool; interval : Z }.
Definition setitimer (s : singleton) (ticks : Z) (p : bool) : singleton * (Z * Z) :=
  let p := match once s with Some p => p | None => p end in
  if Z.ltb 0 ticks
  then let i := if p then ticks else 0 in (Singleton (Some p) i, (ticks, i))
  else (Singleton (Some p) (interval s), (0, interval s)).
Fixpoint setitimers (s : singleton) (l : list (Z * bool)) : list (Z * Z) :=
  match l with
  | [] => []
  | (ticks, p) :: l => let '(s, x) := setitimer s ticks p in x :: setitimers s l
  end.
