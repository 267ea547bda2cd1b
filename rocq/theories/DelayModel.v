(** Model of diminuto_delay.c. [None] is undefined behaviour, or a delay that has not
    ended when the answers of nanosleep(2) run out. *)

From Coq Require Import ZArith List Bool.
From Verif Require Import CInt CUtil TimeModel.
Import ListNotations.
Local Open Scope Z_scope.

(** struct timespec: tv_sec and tv_nsec. *)
Definition timespec := (Z * Z)%type.

(** nanosleep(2): it slept, or it was interrupted with EINTR and tells what remains,
    or it failed with another errno and tells nothing. *)
Inductive answer := Slept | Interrupted (remaining : timespec) | Refused.

(** The loop, src/diminuto_delay.c:35-46: result, and what was asked and answered. *)
Fixpoint sleeping (interruptible : bool) (delay remaining : timespec) (answers : list answer)
    : option (timespec * list (timespec * answer)) :=
  match answers with
  | [] => None
  | Slept :: _ => Some ((0, 0), [(delay, Slept)])
  | Refused :: _ => Some (remaining, [(delay, Refused)])
  | Interrupted r :: answers =>
      if interruptible then Some (r, [(delay, Interrupted r)])
      else let* '(result, trace) := sleeping interruptible r r answers in
           Some (result, (delay, Interrupted r) :: trace)
  end.

(** diminuto_delay(), src/diminuto_delay.c:21-51; diminuto_ticks_t is unsigned and the
    functions of diminuto_frequency.h are for diminuto_sticks_t. *)
Definition diminuto_delay (ticks : Z) (interruptible : bool) (answers : list answer)
    : option (Z * list (timespec * answer)) :=
  let* sec := ticks2wholeseconds (s64 ticks) in
  let* nsec := ticks2fractionalseconds (s64 ticks) 1000000000 in
  let* '(result, trace) := sleeping interruptible (sec, nsec) (sec, nsec) answers in
  let* t := seconds2ticks (fst result) (snd result) 1000000000 in
  Some (u64 t, trace).

(** diminuto_pause(), src/diminuto_delay.c:65-81: pause(2) returns an int, and errno
    may be EINTR. *)
Definition diminuto_pause (rc : Z) (eintr : bool) : Z :=
  if 0 <=? rc then -1 else if eintr then 0 else rc.
