(** Model of threads that share a value by way of code sections: of diminuto_atomicapply.c,
    of the counters of diminuto_unittest.c, and of the critical and serialized sections
    themselves. Each thread has functions to apply to the value, one after the other, each
    in a section of its own; the reading and the writing of the value are steps of their
    own, between which any other thread may run. A schedule says which thread takes its next
    step, or is cancelled. Simplifications: memory is sequentially consistent (the mutex and
    the builtins are barriers); a function has one read and one write. *)

From Coq Require Import ZArith List Bool Arith.
Import ListNotations.

(** What makes the section: a mutex with a cleanup handler, or a spin lock without. *)
Inductive kind := Mutex | Spin.

(** [try]: the section is tried instead of begun. *)
Record job (V R : Type) := Job { try : bool; fn : V -> V * R }.
Arguments Job {V R}. Arguments try {V R}. Arguments fn {V R}.

(** Out of any section; in one; with the value read; with the value written. *)
Inductive place (V R : Type) := Out | In | Got (v : V) | Put (r : R).
Arguments Out {V R}. Arguments In {V R}. Arguments Got {V R}. Arguments Put {V R}.

(** [results] has what became of the jobs so far; [None] is a try that did not succeed. *)
Record thread (V R : Type) := Thread { alive : bool; jobs : list (job V R); at_ : place V R; results : list (option R) }.
Arguments Thread {V R}. Arguments alive {V R}. Arguments jobs {V R}. Arguments at_ {V R}. Arguments results {V R}.

Record state (V R : Type) := State { lock : bool; shared : V; threads : nat -> thread V R }.
Arguments State {V R}. Arguments lock {V R}. Arguments shared {V R}. Arguments threads {V R}.

Inductive action := Run (t : nat) | Kill (t : nat).

Definition upd {A} (f : nat -> A) (t : nat) (x : A) : nat -> A := fun u => if Nat.eqb u t then x else f u.

(** inc/com/diag/diminuto/diminuto_criticalsection.h:49-85,
    inc/com/diag/diminuto/diminuto_serializedsection.h:36-74 and
    src/diminuto_atomicapply.c:20-22: the next step of a thread. A thread that has to wait
    for the mutex, or to spin, stays where it is. *)
Definition advance {V R} (t : nat) (s : state V R) : state V R :=
  let th := threads s t in
  if negb (alive th) then s else
  match jobs th with
  | [] => s
  | j :: rest =>
      match at_ th with
      | Out =>
          if lock s then
            if try j then State (lock s) (shared s) (upd (threads s) t (Thread true rest Out (results th ++ [None]))) else s
          else State true (shared s) (upd (threads s) t (Thread true (jobs th) In (results th)))
      | In => State (lock s) (shared s) (upd (threads s) t (Thread true (jobs th) (Got (shared s)) (results th)))
      | Got v => State (lock s) (fst (fn j v)) (upd (threads s) t (Thread true (jobs th) (Put (snd (fn j v))) (results th)))
      | Put r => State false (shared s) (upd (threads s) t (Thread true rest Out (results th ++ [Some r])))
      end
  end.
(** src/diminuto_criticalsection.c:48-57 diminuto_criticalsection_cleanup: what is done when
    the thread is cancelled. A spin lock has no cleanup handler. *)
Definition cancel {V R} (k : kind) (t : nat) (s : state V R) : state V R :=
  let th := threads s t in
  if negb (alive th) then s else
  let dead := upd (threads s) t (Thread false (jobs th) (at_ th) (results th)) in
  match at_ th, k with
  | Out, _ => State (lock s) (shared s) dead
  | _, Mutex => State false (shared s) dead
  | _, Spin => State (lock s) (shared s) dead
  end.
Definition step {V R} (k : kind) (a : action) (s : state V R) : state V R :=
  match a with Run t => advance t s | Kill t => cancel k t s end.
Fixpoint run {V R} (k : kind) (schedule : list action) (s : state V R) : state V R :=
  match schedule with [] => s | a :: schedule => run k schedule (step k a s) end.

Definition init {V R} (v : V) (work : nat -> list (job V R)) : state V R :=
  State false v (fun t => Thread true (work t) Out []).

(** src/diminuto_unittest.c:34-54 diminuto_unittest_test and diminuto_unittest_error. *)
Definition count : job Z Z := Job false (fun n => ((n + 1)%Z, (n + 1)%Z)).
