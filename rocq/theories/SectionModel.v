(** Model of the code sections of diminuto: what one thread does, and has done to it, in
    critical, serialized and uninterruptible sections however they are nested.
    Simplifications: mutexes are of the default kind, so that a thread that locks the same
    one again waits for ever; other threads appear only as whether a mutex or spin lock is
    taken when it is tried (the Apply model has the threads themselves); cancellation is
    deferred, the POSIX default; errno and the log. Signal sets are numbers with a bit set
    for each signal. *)

From Coq Require Import ZArith List Bool.
From Verif Require Import CUtil.
Import ListNotations.
Local Open Scope Z_scope.

(** sigaddset(3), as glibc has it: signals 1 to 64, less the two it keeps to itself. *)
Definition sigaddset (set signum : Z) : option Z :=
  if (1 <=? signum) && (signum <=? 64) && negb (signum =? 32) && negb (signum =? 33) then Some (Z.setbit set signum) else None.
(** Linux removes SIGKILL and SIGSTOP, in silence, from the signals to be blocked. *)
Definition unblockable : Z := Z.lor (2 ^ 9) (2 ^ 19).
(** pthread_sigmask(3), SIG_BLOCK and SIG_SETMASK. *)
Definition sig_block (mask set : Z) : Z := Z.lor mask (Z.ldiff set unblockable).
Definition sig_setmask (mask set : Z) : Z := Z.ldiff set unblockable.

(** src/diminuto_uninterruptiblesection.c:26-30: the loop that makes the set. *)
Fixpoint adds (set : Z) (signals : list Z) : option Z :=
  match signals with
  | [] => Some set
  | signum :: signals => match sigaddset set signum with Some set => adds set signals | None => None end
  end.
(** src/diminuto_uninterruptiblesection.c:17-43 diminuto_uninterruptiblesection_block: the
    new mask; [None] is -1, and then the mask is not changed. *)
Definition block (mask : Z) (signals : list Z) : option Z :=
  match adds 0 signals with Some set => Some (sig_block mask set) | None => None end.

(** What the thread has: its mask, the mutexes and the spin locks that it holds; and what
    was so each time it did some work. *)
Record env := Env { mask : Z; mutexes : list Z; spins : list Z; trace : list (Z * Z * list Z * list Z) }.

Inductive kind :=
| Uninterruptible (signals : list Z)
| Critical (mutex : Z)
| Serialized (lock : Z).

(** Code. [Work] is anything with no part in this; [Setmask] is pthread_sigmask(3) called by
    the application; [Break] is also continue; [Cancel] is a cancellation point at which the
    thread is cancelled; [Begin] and [Try] are the macros up to the END that goes with them,
    and [taken] is whether another thread has the lock just then. *)
Inductive code :=
| Work (name : Z)
| Setmask (set : Z)
| Seq (a b : code)
| Break
| Return
| Cancel
| Begin (k : kind) (body : code)
| Try (k : kind) (taken : bool) (body : code).

(** How code ends. [Aborted] is the process, [Hung] is the thread waiting for itself. *)
Inductive outcome := Done | Broken | Returned | Cancelled | Aborted | Hung.

Inductive entry := Entered (e : env) | Refused.

Definition memb (x : Z) (l : list Z) : bool := existsb (Z.eqb x) l.
Fixpoint drop (x : Z) (l : list Z) : list Z :=
  match l with [] => [] | y :: l => if x =? y then l else y :: drop x l end.

(** inc/com/diag/diminuto/diminuto_uninterruptiblesection.h:45-53 and 61-68,
    inc/com/diag/diminuto/diminuto_criticalsection.h:49-57 and 67-74,
    src/diminuto_criticalsection.c:17-46 and
    inc/com/diag/diminuto/diminuto_serializedsection.h:36-43 and 56-62: how a section is
    entered. *)
Definition enter (k : kind) (taken : bool) (e : env) : entry :=
  match k with
  | Uninterruptible signals =>
      match block (mask e) signals with
      | Some m => Entered (Env m (mutexes e) (spins e) (trace e))
      | None => Refused
      end
  | Critical m =>
      if taken || memb m (mutexes e) then Refused else Entered (Env (mask e) (m :: mutexes e) (spins e) (trace e))
  | Serialized l =>
      if taken || memb l (spins e) then Refused else Entered (Env (mask e) (mutexes e) (l :: spins e) (trace e))
  end.
(** src/diminuto_uninterruptiblesection.c:45-54, src/diminuto_criticalsection.c:48-57 and
    inc/com/diag/diminuto/diminuto_serializedsection.h:72: how it is left. [saved] is the
    mask there was when it was entered. *)
Definition leave (k : kind) (saved : Z) (e : env) : env :=
  match k with
  | Uninterruptible _ => Env (sig_setmask (mask e) saved) (mutexes e) (spins e) (trace e)
  | Critical m => Env (mask e) (drop m (mutexes e)) (spins e) (trace e)
  | Serialized l => Env (mask e) (mutexes e) (drop l (spins e)) (trace e)
  end.

(** inc/com/diag/diminuto/diminuto_uninterruptiblesection.h:76-80,
    inc/com/diag/diminuto/diminuto_criticalsection.h:81-85 and
    inc/com/diag/diminuto/diminuto_serializedsection.h:70-74: the end of a section. A break
    ends the innermost do, which is that of the section. Only the first two push a cleanup
    handler, so that only they are left when the thread is cancelled; and to return between
    the push and the pop is undefined (POSIX pthread_cleanup_push). *)
Definition close (k : kind) (saved : Z) (r : option (outcome * env)) : option (outcome * env) :=
  match r with
  | None => None
  | Some (o, e) =>
      match o with
      | Done | Broken => Some (Done, leave k saved e)
      | Cancelled => match k with Serialized _ => Some (Cancelled, e) | _ => Some (Cancelled, leave k saved e) end
      | Returned => match k with Serialized _ => Some (Returned, e) | _ => None end
      | Aborted | Hung => Some (o, e)
      end
  end.

(** [None] is undefined behaviour. A section that is begun and cannot be entered fails its
    contract (diminuto_assert.h:63), which ends the process, or waits for a lock that the
    thread itself has. *)
Fixpoint eval (c : code) (e : env) : option (outcome * env) :=
  match c with
  | Work name => Some (Done, Env (mask e) (mutexes e) (spins e) (trace e ++ [(name, mask e, mutexes e, spins e)]))
  | Setmask set => Some (Done, Env (sig_setmask (mask e) set) (mutexes e) (spins e) (trace e))
  | Seq a b => match eval a e with Some (Done, e) => eval b e | r => r end
  | Break => Some (Broken, e)
  | Return => Some (Returned, e)
  | Cancel => Some (Cancelled, e)
  | Begin k body =>
      match enter k false e with
      | Entered e' => close k (mask e) (eval body e')
      | Refused => Some (match k with Uninterruptible _ => Aborted | _ => Hung end, e)
      end
  | Try k taken body =>
      match enter k taken e with
      | Entered e' => close k (mask e) (eval body e')
      | Refused => Some (Done, e)
      end
  end.
