(** Model of diminuto_observation.c: any number of threads make observations of one target
    path, and read it. Between any two system calls of one thread the others may do any
    number of theirs; any thread may crash. A program that has several observations in
    hand is several threads here. Not modelled: log output, errno; modes; more than one
    target; malloc failure other than as a failure of create; and that create compares
    the caller's uninitialised pointer with the name it made
    (src/diminuto_observation.c:92). *)

From Coq Require Import ZArith List Bool Arith.
From Verif Require Import CInt CUtil DiskModel.
Import ListNotations.
Local Open Scope Z_scope.

(** write(2) of [l] at offset [o] of a file that contains [f]: a gap is filled with zeros. *)
Definition put (o : nat) (l : list Z) (f : list Z) : list Z := firstn o f ++ repeat 0 (o - length f) ++ l ++ skipn (o + length l) f.
Definition d_write (d : disk) (i : Z) (o : nat) (l : list Z) : disk := Disk (entry d) (fun j => if j =? i then put o l (data d j) else data d j) (spare d).

(** The functions of the API: diminuto_observation_create (and _generic), _commit,
    _checkpoint, _discard. *)
Inductive api := CREATE | COMMIT | CHECKPOINT | DISCARD.

(** Writes that a stream (stdio(3)) has not passed on yet. *)
Definition pending := list (nat * list Z).

(** Where a thread is: it has no observation; it is in create, before mkstemp, and after;
    it has an open observation, with its temporary name, inode, what is pending, and all
    that was written. In commit: in fclose; before the renaming. In discard: in fclose;
    before the unlinking. In checkpoint: before the clock is read; in fflush; before the
    link. [Stale]: with a stream that is closed, and the name of its file.
    About to return, and where to. Reading, with what was read so far. *)
Inductive pc :=
  | Free
  | Making
  | Made (n i : Z)
  | Open (n i : Z) (p : pending) (goal : list Z)
  | Closing (n i : Z) (p : pending) (goal : list Z)
  | Renaming (n i : Z) (goal : list Z)
  | Dropping (n i : Z) (p : pending)
  | Unlinking (n i : Z)
  | Stamping (n i : Z) (p : pending) (goal : list Z)
  | Flushing (n i : Z) (p : pending) (goal : list Z)
  | Linking (n i : Z) (p : pending) (goal : list Z)
  | Stale (n : Z)
  | Leaving (next : pc) (c : api) (ok : bool)
  | Reading (i : Z) (got : list Z)
  | Undefined
  | Dead.

(** What a thread does next: it calls a function; it writes to its stream; mkstemp succeeds;
    a checkpoint gets a name from the clock; a call of the system or of the library does
    what it should, or it fails for a reason outside this model; write or read transfer
    some octets; the function returns; it opens the target; it crashes. *)
Inductive act := Calls (c : api) | Puts (o : nat) (l : list Z) | MakesTemp (n : Z) | Stamps (m : Z) | Proceeds | Fails | Transfers (k : nat) | Returns | Opens | Crashes.

(** What a program sees; and [Committed] and [Stamped], the moments at which a commit and a
    checkpoint take effect. *)
Inductive event :=
  | Called (c : api) | Returned (c : api) (ok : bool) | Wrote (o : nat) (l : list Z) | Committed (l : list Z) | Stamped (m : Z) | Opened | Got (l : option (list Z)).

Record world := World { files : disk; threads : nat -> pc; history : list (nat * event) }.
Definition goes (w : world) (t : nat) (d : disk) (p : pc) (e : list event) : world :=
  World d (fun u => if (u =? t)%nat then p else threads w u) (history w ++ map (fun x => (t, x)) e).

(** The name of the target. *)
Definition TARGET : Z := 0.

(** src/diminuto_observation.c:47-52: create refuses a path that is too long; [path_t] has
    4096 characters. Lines 119-124 and 177-182: commit and checkpoint refuse a temporary
    name (7 longer than the path) that is not longer than 8, or too long. *)
Definition create_accepts (len : Z) : bool := negb (len >? 4096 - 8 - 1).
Definition commit_accepts (len : Z) : bool := (8 <? len + 7) && (len + 7 <? 4096).

(** The stream passes on some of what is pending. *)
Definition transfers (d : disk) (i : Z) (p : pending) (k : nat) : option (disk * pending) :=
  match p with
  | (o, l) :: p =>
    if ((0 <? k) && (k <=? length l))%nat
    then Some (d_write d i o (firstn k l), if (k =? length l)%nat then p else ((o + k)%nat, skipn k l) :: p)
    else None
  | [] => None
  end.

(** One step of one thread, for a target whose path is [len] long: [None] if it cannot be. *)
Definition step (len : Z) (w : world) (t : nat) (a : act) : option world :=
  let d := files w in
  match threads w t, a with
  | Dead, _ | Undefined, _ => None
  | _, Crashes => Some (goes w t d Dead [])
  (* src/diminuto_observation.c:31-109 diminuto_observation_create_generic. When it fails
     after mkstemp the temporary file stays. *)
  | Free, Calls CREATE | Stale _, Calls CREATE => Some (goes w t d Making [Called CREATE])
  | Making, MakesTemp n =>
    if create_accepts len && negb (n =? TARGET) then
      match d_create d n with Some (d', i) => Some (goes w t d' (Made n i) []) | None => None end
    else None
  | Making, Fails => Some (goes w t d (Leaving Free CREATE false) [])
  | Made n i, Proceeds => Some (goes w t d (Leaving (Open n i [] []) CREATE true) [])
  | Made n i, Fails => Some (goes w t d (Leaving Free CREATE false) [])
  (* The stream. *)
  | Open n i p g, Puts o (x :: l) => Some (goes w t d (Open n i (p ++ [(o, x :: l)]) (put o (x :: l) g)) [Wrote o (x :: l)])
  | Open n i p g, Transfers k => let* '(d', p) := transfers d i p k in Some (goes w t d' (Open n i p g) [])
  (* src/diminuto_observation.c:111-158 diminuto_observation_commit: the length; fclose;
     renameat. *)
  | Open n i p g, Calls COMMIT =>
    if commit_accepts len then Some (goes w t d (Closing n i p g) [Called COMMIT])
    else Some (goes w t d (Leaving (Open n i p g) COMMIT false) [Called COMMIT])
  | Closing n i p g, Transfers k => let* '(d', p) := transfers d i p k in Some (goes w t d' (Closing n i p g) [])
  | Closing n i [] g, Proceeds => Some (goes w t d (Renaming n i g) [])
  | Closing n i _ g, Fails => Some (goes w t d (Leaving (Stale n) COMMIT false) [])
  | Renaming n i g, Proceeds =>
    match d_rename d n TARGET with
    | Some d' => Some (goes w t d' (Leaving Free COMMIT true) [Committed g])
    | None => Some (goes w t d (Leaving (Stale n) COMMIT false) [])
    end
  | Renaming n i g, Fails => Some (goes w t d (Leaving (Stale n) COMMIT false) [])
  (* src/diminuto_observation.c:221-254 diminuto_observation_discard: fclose; unlink. *)
  | Open n i p g, Calls DISCARD => Some (goes w t d (Dropping n i p) [Called DISCARD])
  | Dropping n i p, Transfers k => let* '(d', p) := transfers d i p k in Some (goes w t d' (Dropping n i p) [])
  | Dropping n i [], Proceeds => Some (goes w t d (Unlinking n i) [])
  | Dropping n i _, Fails => Some (goes w t d (Leaving (Stale n) DISCARD false) [])
  | Unlinking n i, Proceeds =>
    match d_unlink d n with
    | Some d' => Some (goes w t d' (Leaving Free DISCARD true) [])
    | None => Some (goes w t d (Leaving (Stale n) DISCARD false) [])
    end
  | Unlinking n i, Fails => Some (goes w t d (Leaving (Stale n) DISCARD false) [])
  (* src/diminuto_observation.c:160-219 diminuto_observation_checkpoint: the length; the
     clock; fflush, whose failure is ignored; link. *)
  | Open n i p g, Calls CHECKPOINT =>
    if commit_accepts len then Some (goes w t d (Stamping n i p g) [Called CHECKPOINT])
    else Some (goes w t d (Leaving (Open n i p g) CHECKPOINT false) [Called CHECKPOINT])
  | Stamping n i p g, Proceeds => Some (goes w t d (Flushing n i p g) [])
  | Stamping n i p g, Fails => Some (goes w t d (Leaving (Open n i p g) CHECKPOINT false) [])
  | Flushing n i p g, Transfers k => let* '(d', p) := transfers d i p k in Some (goes w t d' (Flushing n i p g) [])
  | Flushing n i [] g, Proceeds => Some (goes w t d (Linking n i [] g) [])
  | Flushing n i p g, Fails => Some (goes w t d (Linking n i p g) [])
  | Linking n i p g, Stamps m =>
    if m =? TARGET then None else
    match d_link d n m with
    | Some d' => Some (goes w t d' (Leaving (Open n i p g) CHECKPOINT true) [Stamped m])
    | None => Some (goes w t d (Leaving (Open n i p g) CHECKPOINT false) [])
    end
  | Linking n i p g, Fails => Some (goes w t d (Leaving (Open n i p g) CHECKPOINT false) [])
  (* A stream that is closed is used. *)
  | Stale n, Calls _ | Stale n, Puts _ _ => Some (goes w t d Undefined [])
  | Leaving p c ok, Returns => Some (goes w t d p [Returned c ok])
  (* A reader: open, read to the end, close. *)
  | Free, Opens =>
    match entry d TARGET with
    | Some i => Some (goes w t d (Reading i []) [Opened])
    | None => Some (goes w t d Free [Opened; Got None])
    end
  | Reading i got, Transfers k =>
    let rest := skipn (length got) (data d i) in
    if ((0 <? k) && (k <=? length rest))%nat then Some (goes w t d (Reading i (got ++ firstn k rest)) []) else None
  | Reading i got, Proceeds => if (length (data d i) <=? length got)%nat then Some (goes w t d Free [Got (Some got)]) else None
  | _, _ => None
  end.
Fixpoint run (len : Z) (w : world) (tr : list (nat * act)) : option world :=
  match tr with
  | [] => Some w
  | (t, a) :: tr => let* w := step len w t a in run len w tr
  end.
Definition start (d : disk) : world := World d (fun _ => Free) [].
