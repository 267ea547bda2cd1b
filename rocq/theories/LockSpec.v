(** Specification for lock files. *)

From Coq Require Import ZArith List Bool.
From Verif Require Import CInt DiskModel LockModel.
Import ListNotations.
Local Open Scope Z_scope.

(** A thread holds the lock when lock or prelock returned 0 to it, and it has not called
    unlock since. *)
Definition holds_by (h : list (nat * event)) (t : nat) (c : api) : Prop :=
  (c = LOCK \/ c = PRELOCK) /\ exists h1 h2, h = h1 ++ (t, Returned c 0) :: h2 /\ ~ In (t, Called UNLOCK) h2.
Definition holds (h : list (nat * event)) (t : nat) : Prop := exists c, holds_by h t c.
(** Programs that only unlock what they hold, and do not use diminuto_lock_file, "which
    has no lock semantics", on a lock file. *)
Definition well_behaved (h : list (nat * event)) : Prop :=
  (forall h1 h2 t, h = h1 ++ (t, Called UNLOCK) :: h2 -> holds h1 t) /\ (forall t, ~ In (t, Called FILE) h).

(** Programs that call postlock only while they hold the lock (having prelocked it); and a
    thread to which postlock has returned 0, and that has not called unlock since. *)
Definition proper (h : list (nat * event)) : Prop := forall h1 h2 t, h = h1 ++ (t, Called POSTLOCK) :: h2 -> holds h1 t.
Definition postlocked (h : list (nat * event)) (t : nat) : Prop :=
  exists h1 h2, h = h1 ++ (t, Returned POSTLOCK 0) :: h2 /\ ~ In (t, Called UNLOCK) h2.

(** A disk on which files are not numbered beyond [spare], and without the lock file. *)
Definition unlocked (d : disk) : Prop := entry d LOCKFILE = None /\ forall n i, entry d n = Some i -> i < spare d.

(** The temporary name a thread has in its hand. *)
Definition uses (p : pc) (n : Z) : Prop :=
  match p with
  | Opened _ m _ | Flushing _ m _ _ | Renaming _ m | Cleanup _ m _ => m = n
  | _ => False
  end.
(** mkstemp chooses at random among 62^6 names. This says that it was never so unlucky as
    to choose a name that some thread has in its hand (although there is no file of that
    name: that thread has just renamed it, or has yet to unlink it); and that when it
    failed it was not because there were files of all the names it tried. *)
Definition lucky_act (w : world) (a : act) : Prop :=
  match a with
  | MakesTemp n => forall u, ~ uses (threads w u) n
  | NoTemp n => (forall u, ~ uses (threads w u) n) /\ entry (files w) n = None
  | _ => True
  end.
Fixpoint lucky (pid : nat -> Z) (w : world) (tr : list (nat * act)) : Prop :=
  match tr with
  | [] => True
  | (t, a) :: tr => lucky_act w a /\ match step pid w t a with Some w => lucky pid w tr | None => True end
  end.

(** A thread called a function, which has returned 0, or has not returned. *)
Definition succeeded (h : list (nat * event)) (t : nat) (c : api) : Prop :=
  exists h1 h2, h = h1 ++ (t, Called c) :: h2 /\
    match find (fun e => Nat.eqb (fst e) t) h2 with None => True | Some e => e = (t, Returned c 0) end.
(** What the lock file may contain: nothing, if it was made by prelock; or the process
    identifier and a newline, of a thread for which lock, postlock or file succeeded. *)
Definition contents (pid : nat -> Z) (h : list (nat * event)) (l : list Z) : Prop :=
  l = [] /\ (exists t, succeeded h t PRELOCK) \/
  exists t c, succeeded h t c /\ (c = LOCK \/ c = POSTLOCK \/ c = FILE) /\ l = show (pid t) ++ [10].
(** What check may return: that there is no lock file (or it could not be opened); that it
    is prelocked; or the process identifier of such a thread. *)
Definition checked (pid : nat -> Z) (h : list (nat * event)) (rc : Z) : Prop :=
  rc = -1 \/ rc = 0 /\ (exists t, succeeded h t PRELOCK) \/
  exists t c, succeeded h t c /\ (c = LOCK \/ c = POSTLOCK \/ c = FILE) /\ rc = pid t.

(** What is in the lock file, if there is one. *)
Definition lock_data (d : disk) : option (list Z) := option_map (data d) (entry d LOCKFILE).

(** Nothing undefined happened. *)
Definition defined (w : world) : Prop := forall t, threads w t <> Undefined.

(** For the examples. *)
Definition empty_disk : disk := Disk (fun _ => None) (fun _ => []) 0.
Definition pid_example (t : nat) : Z := 100 + Z.of_nat t mod 900.
(** Thread [t] locks alone, with temporary file [n], writing 2 octets and then 2. *)
Definition locks_alone (t : nat) (n : Z) : list (nat * act) :=
  [(t, Calls LOCK); (t, MakesTemp n); (t, Proceeds); (t, Transfers 2); (t, Transfers 2); (t, Proceeds); (t, Proceeds); (t, Proceeds); (t, Returns)].
(** Thread 0 locks; thread 1 tries; thread 2 checks; thread 3 dies between making its
    temporary file and writing all of it; thread 0 unlocks, and thread 1 prelocks and
    postlocks. *)
Definition lock_example : list (nat * act) :=
  locks_alone 0 7 ++ locks_alone 1 8 ++ [(2%nat, Calls CHECK); (2%nat, Proceeds); (3%nat, Calls LOCK); (3%nat, MakesTemp 9); (3%nat, Proceeds); (3%nat, Transfers 1); (3%nat, Crashes); (2%nat, Transfers 2); (2%nat, Transfers 2); (2%nat, Proceeds); (2%nat, Returns);
  (0%nat, Calls UNLOCK); (0%nat, Proceeds); (0%nat, Returns); (1%nat, Calls PRELOCK); (1%nat, Proceeds); (1%nat, Returns); (1%nat, Calls POSTLOCK); (1%nat, MakesTemp 7); (1%nat, Proceeds); (1%nat, Transfers 4); (1%nat, Proceeds); (1%nat, Proceeds); (1%nat, Proceeds); (1%nat, Returns)].
