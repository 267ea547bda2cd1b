(** Model of diminuto_lock.c: any number of threads, of any number of processes, use one
    lock file. Between any two system calls of one thread the others may do any number
    of theirs. Not modelled: log output, errno; more than one lock file. *)

From Coq Require Import ZArith List Bool Arith.
From Verif Require Import CInt CUtil DiskModel.
Import ListNotations.
Local Open Scope Z_scope.

(** printf(3) and scanf(3) with "%d", outside this project: the decimal digits of a number. *)
Fixpoint show_digits (fuel : nat) (n : Z) (acc : list Z) : list Z :=
  match fuel with
  | O => acc
  | S fuel => if n <? 10 then (48 + n) :: acc else show_digits fuel (n / 10) ((48 + n mod 10) :: acc)
  end.
Definition show (n : Z) : list Z := if n <? 0 then 45 :: show_digits 10 (- n) [] else show_digits 10 n [].
Definition is_digit (c : Z) : bool := (48 <=? c) && (c <=? 57).
Definition is_space (c : Z) : bool := (c =? 32) || ((9 <=? c) && (c <=? 13)).
Fixpoint scan_digits (l : list Z) (acc : Z) : Z :=
  match l with
  | [] => acc
  | c :: l => if is_digit c then scan_digits l (acc * 10 + (c - 48)) else acc
  end.
Definition scan_unsigned (l : list Z) : option Z :=
  match l with
  | c :: _ => if is_digit c then Some (scan_digits l 0) else None
  | [] => None
  end.
Fixpoint scan (l : list Z) : option Z :=
  match l with
  | [] => None
  | c :: l => if is_space c then scan l else if c =? 45 then option_map Z.opp (scan_unsigned l) else if c =? 43 then scan_unsigned l else scan_unsigned (c :: l)
  end.

(** The functions of the API: diminuto_lock_lock, _prelock, _postlock, _unlock, _check,
    _file. *)
Inductive api := LOCK | PRELOCK | POSTLOCK | UNLOCK | CHECK | FILE.

(** Where a thread is: in no function; before its first system call; in diminuto_lock_f
    (src/diminuto_lock.c:31-111) with a temporary file made, and with what is still to be
    written there, in fclose; with that closed; before the unlink at the end; about to
    return. Or reading, with what was read so far. [Undefined]: did something that is
    undefined. [Dead]: crashed. *)
Inductive pc :=
  | Idle
  | Begin (c : api)
  | Opened (c : api) (path inode : Z)
  | Flushing (c : api) (path inode : Z) (todo : list Z)
  | Renaming (c : api) (path : Z)
  | Cleanup (c : api) (path : Z) (rc : Z)
  | Leaving (c : api) (rc : Z)
  | Reading (inode : Z) (got : list Z)
  | Undefined
  | Dead.

(** What a thread does next: it calls a function; mkstemp succeeds with a name, or fails
    and leaves a name in the buffer; a call of the system or of the library does what it
    should, or it fails for a reason outside this model; write or read transfer some
    octets; the function returns; the thread crashes, with its process. *)
Inductive act := Calls (c : api) | MakesTemp (n : Z) | NoTemp (n : Z) | Proceeds | Fails | Transfers (k : nat) | Returns | Crashes.

(** What a program sees. *)
Inductive event := Called (c : api) | Returned (c : api) (rc : Z).

Record world := World { files : disk; threads : nat -> pc; history : list (nat * event) }.
Definition goes (w : world) (t : nat) (d : disk) (p : pc) : world := World d (fun u => if (u =? t)%nat then p else threads w u) (history w).
Definition notes (w : world) (t : nat) (e : event) : world := World (files w) (threads w) (history w ++ [(t, e)]).

(** The name of the lock file. *)
Definition LOCKFILE : Z := 0.

(** The type of the renaming: src/diminuto_lock.c:113-116, 160-163, 226-229. *)
Definition installs (c : api) (d : disk) (path : Z) : option disk :=
  match c with
  | LOCK => d_rename_noreplace d path LOCKFILE
  | POSTLOCK => d_rename_exchange d path LOCKFILE
  | FILE => d_rename d path LOCKFILE
  | _ => None
  end.
Definition makes_temp (c : api) : bool := match c with LOCK | POSTLOCK | FILE => true | _ => false end.

(** One step of one thread, of which [pid] is its process: [None] if it cannot be. *)
Definition step (pid : nat -> Z) (w : world) (t : nat) (a : act) : option world :=
  let d := files w in
  match threads w t, a with
  | Dead, _ | Undefined, _ => None
  | _, Crashes => Some (goes w t d Dead)
  | Idle, Calls c => Some (notes (goes w t d (Begin c)) t (Called c))
  (* src/diminuto_lock.c:40-52: mkstemp. A template is never the name of the lock file. *)
  | Begin c, MakesTemp n =>
    if makes_temp c && negb (n =? LOCKFILE) then
      match d_create d n with Some (d', i) => Some (goes w t d' (Opened c n i)) | None => None end
    else None
  | Begin c, NoTemp n => if makes_temp c && negb (n =? LOCKFILE) then Some (goes w t d (Cleanup c n (-1))) else None
  (* src/diminuto_lock.c:54-62: fdopen and fprintf, which fills a buffer. *)
  | Opened c n i, Proceeds => Some (goes w t d (Flushing c n i (show (pid t) ++ [10])))
  | Opened c n _, Fails => Some (goes w t d (Cleanup c n (-1)))
  (* src/diminuto_lock.c:64-70: fclose, which writes the buffer. If it fails, lines 89-96
     close the stream again, which is undefined. *)
  | Flushing c n i todo, Transfers k =>
    if ((0 <? k) && (k <=? length todo))%nat then Some (goes w t (d_append d i (firstn k todo)) (Flushing c n i (skipn k todo))) else None
  | Flushing c n i [], Proceeds => Some (goes w t d (Renaming c n))
  | Flushing c n i _, Fails => Some (goes w t d Undefined)
  (* src/diminuto_lock.c:76-83: renameat2. *)
  | Renaming c n, Proceeds =>
    match installs c d n with
    | Some d' => Some (goes w t d' (Cleanup c n 0))
    | None => Some (goes w t d (Cleanup c n (-1)))
    end
  | Renaming c n, Fails => Some (goes w t d (Cleanup c n (-1)))
  (* src/diminuto_lock.c:106-108: unlink, always, and whatever comes of it. *)
  | Cleanup c n rc, Proceeds => Some (goes w t (match d_unlink d n with Some d' => d' | None => d end) (Leaving c rc))
  (* src/diminuto_lock.c:132-158 diminuto_lock_prelock. *)
  | Begin PRELOCK, Proceeds => match d_create d LOCKFILE with Some (d', _) => Some (goes w t d' (Leaving PRELOCK 0)) | None => Some (goes w t d (Leaving PRELOCK (-1))) end
  | Begin PRELOCK, Fails => Some (goes w t d (Leaving PRELOCK (-1)))
  (* src/diminuto_lock.c:179-193 diminuto_lock_unlock. *)
  | Begin UNLOCK, Proceeds => match d_unlink d LOCKFILE with Some d' => Some (goes w t d' (Leaving UNLOCK 0)) | None => Some (goes w t d (Leaving UNLOCK (-1))) end
  | Begin UNLOCK, Fails => Some (goes w t d (Leaving UNLOCK (-1)))
  (* src/diminuto_lock.c:195-224 diminuto_lock_check: fopen, and the reads of fscanf, to
     the end of the file. *)
  | Begin CHECK, Proceeds => match entry d LOCKFILE with Some i => Some (goes w t d (Reading i [])) | None => Some (goes w t d (Leaving CHECK (-1))) end
  | Begin CHECK, Fails => Some (goes w t d (Leaving CHECK (-1)))
  | Reading i got, Transfers k =>
    let rest := skipn (length got) (data d i) in
    if ((0 <? k) && (k <=? length rest))%nat then Some (goes w t d (Reading i (got ++ firstn k rest))) else None
  | Reading i got, Proceeds =>
    if (length (data d i) <=? length got)%nat then Some (goes w t d (Leaving CHECK (match scan got with Some z => s32 z | None => 0 end))) else None
  | Leaving c rc, Returns => Some (notes (goes w t d Idle) t (Returned c rc))
  | _, _ => None
  end.
Fixpoint run (pid : nat -> Z) (w : world) (tr : list (nat * act)) : option world :=
  match tr with
  | [] => Some w
  | (t, a) :: tr => let* w := step pid w t a in run pid w tr
  end.
Definition start (d : disk) : world := World d (fun _ => Idle) [].
