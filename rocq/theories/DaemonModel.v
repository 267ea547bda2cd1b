(** Model of diminuto_daemon.c: what becomes of the processes, and of the descriptors
    and streams of the last of them. The test modes (diminuto_daemon_testing) are not
    modelled, nor what is logged. [None] is undefined behaviour, or a wait that has not
    ended when its answers run out. *)

From Coq Require Import ZArith List Bool.
From Verif Require Import CInt CUtil.
Import ListNotations.
Local Open Scope Z_scope.

(** * Processes *)

(** What becomes of a process: the function returns, it exits by _exit(2), it executes
    the shell, or a signal kills it. *)
Inductive fate := Returned (rc : Z) | Exited (status : Z) | Executed | Killed.

(** waitpid(2): EINTR, the process identifier, ECHILD, another errno. *)
Inductive wait := Interrupted | Reaped | NoChild | OtherError.

(** What the system answers: getppid(2) to the caller; fork(2) to the caller, a process
    identifier or negative; waitpid(2); whether a signal kills the first child, before
    or after it forks; fork(2) to the first child; whether execl(3) works. *)
Inductive kill := Not | Before | After.
Record system := mksystem { ppid : Z; fork1 : Z; waits : list wait; killed : kill; fork2 : Z; exec : bool }.

(** The loop, src/diminuto_daemon.c:103-118: whether rc is greater than zero. *)
Fixpoint waitpid (ws : list wait) : option bool :=
  match ws with
  | [] => None
  | Interrupted :: ws => waitpid ws
  | Reaped :: _ => Some true
  | _ :: _ => Some false
  end.

(** diminuto_daemon_fork() in the caller, src/diminuto_daemon.c:90-131, the fate of the
    child being known. *)
Definition daemon_fork (s : system) (child : fate) : option Z :=
  if fork1 s <? 0 then Some (fork1 s)
  else let* reaped := waitpid (waits s) in
       Some (if negb reaped then -1
             else match child with
                  | Exited status => if Z.land status 255 =? 0 then fork1 s else -1
                  | _ => -1
                  end).

(** The first child: diminuto_daemon_refork(), src/diminuto_daemon.c:136-149, and lines
    350-356, 412-418 and 456-462. Its fate, and the second child, if any, whose fate is
    [next]. *)
Definition first_child (s : system) (next : fate) : fate * list fate :=
  match killed s with
  | Before => (Killed, [])
  | k =>
      let survive f := match k with After => Killed | _ => f end in
      if fork2 s <? 0 then (survive (Exited 1), []) else (survive (Exited 0), [next])
  end.

(** diminuto_daemon(), src/diminuto_daemon.c:311-367, with diminuto_daemon_verify(),
    lines 67-85: the fates of the caller, the first child and the second child. *)
Definition diminuto_daemon (s : system) : option (list fate) :=
  if ppid s <? 0 then Some [Exited 1]
  else if ppid s =? 1 then Some [Returned 0]
  else
    let '(child, next) := first_child s (Returned 0) in
    let* pid := daemon_fork s child in
    let caller := if pid <? 0 then Exited 1 else Exited 0 in
    Some (caller :: if fork1 s <? 0 then [] else child :: next).

(** diminuto_service(), src/diminuto_daemon.c:388-430. *)
Definition diminuto_service (s : system) : option (list fate) :=
  let '(child, next) := first_child s (Returned 0) in
  let* pid := daemon_fork s child in
  let caller := if pid <? 0 then Returned (-1) else Returned 1 in
  Some (caller :: if fork1 s <? 0 then [] else child :: next).

(** diminuto_system(), src/diminuto_daemon.c:432-477. *)
Definition diminuto_system (s : system) : option (list fate) :=
  let '(child, next) := first_child s (if exec s then Executed else Exited 1) in
  let* pid := daemon_fork s child in
  let caller := if pid <? 0 then Returned (-1) else Returned 0 in
  Some (caller :: if fork1 s <? 0 then [] else child :: next).

(** * Descriptors and streams *)

(** What a descriptor refers to: a file that was open before, or one of the openings of
    the path, for reading or for writing. *)
Inductive file := Before_ (n : Z) (readable : bool) | Path (readable : bool).
Definition table := Z -> option file.
Definition set (t : table) (fd : Z) (f : option file) : table := fun x => if x =? fd then f else t x.

(** A FILE: its descriptor, and whether fclose(3) has not freed it yet. *)
Record stream := mkstream { fileno_ : Z; live : bool }.
Record process := mkprocess { descriptors : table; stdin : option stream; stdout : option stream; stderr : option stream }.

(** fileno(3) of a null pointer or of a freed FILE is undefined. *)
Definition fileno (f : option stream) : option Z :=
  match f with Some s => if live s then Some (fileno_ s) else None | None => None end.

(** open(2) returns the lowest descriptor that is not in use, below the limit. *)
Fixpoint lowest (t : table) (fd : Z) (n : nat) : option Z :=
  match n with
  | O => None
  | S n => match t fd with None => Some fd | Some _ => lowest t (fd + 1) n end
  end.

(** fdopen(3): the descriptor must be open, and for mode "r" be readable. *)
Definition fdopen_r (t : table) (fd : Z) : option stream :=
  match t fd with
  | Some (Before_ _ true) | Some (Path true) => Some (mkstream fd true)
  | _ => None
  end.

(** diminuto_daemon_redirect(), src/diminuto_daemon.c:168-212. [limit] is the limit of
    descriptors, [opens] and [dups] whether open(2) and dup2(2) do not fail otherwise.
    [readable] is whether the flags are O_RDONLY. Whether close(2) and fclose(3) report
    an error makes no difference but for the log. *)
Definition redirect (limit : nat) (opens dups : bool) (number : Z) (readable : bool) (t : table) (filep : option stream)
    : option (table * option stream) :=
  match (if opens then lowest t 0 limit else None) with
  | None => Some (t, filep)
  | Some fd =>
      let t := set t fd (Some (Path readable)) in
      let t := if fd =? number then t
               else if dups then set (set t number (Some (Path readable))) fd None
               else t in
      match filep with
      | None => Some (t, fdopen_r t number)
      | Some _ =>
          let* n := fileno filep in
          if n =? number then Some (t, filep)
          else
            (* fclose( *filep ) leaves the pointer; line 204 passes it to fileno(3). *)
            let t := set t n None in
            let filep := Some (mkstream n false) in
            let* n := fileno filep in
            if n =? number then Some (t, filep) else Some (t, fdopen_r t number)
      end
  end.

(** The loop, src/diminuto_daemon.c:275-293: all but six descriptors are closed. *)
Fixpoint closing (t : table) (i o e : Z) (fd : Z) (n : nat) : table :=
  match n with
  | O => t
  | S n =>
      let t := if (fd =? 0) || (fd =? 1) || (fd =? 2) || (fd =? i) || (fd =? o) || (fd =? e) then t else set t fd None in
      closing t i o e (fd + 1) n
  end.

(** diminuto_fd_count(), src/diminuto_fd.c:178-181: FD_SETSIZE. *)
Definition COUNT : nat := 1024.

(** The part of diminuto_daemon_sanitize() that is about descriptors,
    src/diminuto_daemon.c:253-293; [path] is whether there is a path. Opening the system
    log, line 297, is not modelled, nor are the session, the signals, the mask and the
    directory. *)
Definition sanitize (limit : nat) (path : bool) (opens dups : Z -> bool) (p : process) : option process :=
  let* p :=
    if path then
      let* '(t, i) := redirect limit (opens 0) (dups 0) 0 true (descriptors p) (stdin p) in
      let* '(t, o) := redirect limit (opens 1) (dups 1) 1 false t (stdout p) in
      let* '(t, e) := redirect limit (opens 2) (dups 2) 2 false t (stderr p) in
      Some (mkprocess t i o e)
    else Some p in
  let* i := fileno (stdin p) in
  let* o := fileno (stdout p) in
  let* e := fileno (stderr p) in
  Some (mkprocess (closing (descriptors p) i o e 0 COUNT) (stdin p) (stdout p) (stderr p)).
