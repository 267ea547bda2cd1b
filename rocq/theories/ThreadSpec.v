(** What a thread object is to those who use it. *)

From Coq Require Import ZArith List Bool Arith.
From Verif Require Import CUtil ThreadModel.
Import ListNotations.
Local Open Scope Z_scope.

(** The life of a thread: none yet, started with a context and a handle (and how far), the
    function ended with a value (and whether that shows), terminated, joined; or the object
    is finalized. *)
Inductive progress := Begun | Underway | InFunction.
Inductive life :=
  | Unborn (failed : bool) | Alive (c h : Z) (p : progress) | Over (v h : Z) (shows : bool) | Terminated (v h : Z) | Past (v : Z) | NoMore.
(** Also the notifications not yet taken, and who is joining. *)
Record ref := Ref { l_life : life; pending : Z; joining : option (nat * Z * bool) }.
Definition r_initial : ref := Ref (Unborn false) 0 None.

(** What callers must see to: one at a time starts, joins and finalizes; nothing is done
    with an object after it is finalized; and there are fewer than 2^31 notifications that
    were not taken. *)
Definition permitted (r : ref) (a : action) : bool :=
  match a with
  | Start _ _ _ | JoinBegin _ _ _ => match joining r, l_life r with None, NoMore => false | None, _ => true | Some _, _ => false end
  | Fini => match joining r with None => true | Some _ => false end
  | Notify => match l_life r with NoMore => false | _ => Z.ltb (pending r) 2147483647 end
  | _ => true
  end.

(** The state that shows. *)
Definition shown (l : life) : status :=
  match l with
  | Unborn false => INITIALIZED | Unborn true => FAILED
  | Alive _ _ Begun => STARTED | Alive _ _ _ => RUNNING
  | Over _ _ false => RUNNING | Over _ _ true => EXITING | Terminated _ _ => EXITING
  | Past _ => JOINED | NoMore => FINALIZED
  end.
Definition startable (l : life) : bool := match l with Unborn _ | Past _ => true | _ => false end.
(** The thread that a notification reaches. *)
Definition reached (l : life) : option Z := match l with Alive _ h _ | Over _ h false => Some h | _ => None end.

(** What can be seen, and what comes of it. [signals] is whether a notification sends a
    signal; [last] is the handle of the thread last started. None: cannot be seen. *)
Definition observe (signals : bool) (last : Z) (r : ref) (e : event) : option ref :=
  let be l := Some (Ref l (pending r) (joining r)) in
  match e with
  | Silent => Some r
  | Started c h => if startable (l_life r) then Some (Ref (Alive c h Begun) 0 (joining r)) else None
  | NotStarted true => if startable (l_life r) then Some (Ref (Unborn true) 0 (joining r)) else None
  | NotStarted false => if startable (l_life r) && negb signals then None else Some r
  | Notified target =>
      match reached (l_life r), target with
      | Some h, Some t => if signals && Z.eqb h t then Some (Ref (l_life r) (pending r + 1) (joining r)) else None
      | Some _, None => if signals then None else Some (Ref (l_life r) (pending r + 1) (joining r))
      | None, _ => None
      end
  | NotNotified => match reached (l_life r) with Some _ => None | None => Some r end
  | Joins i me timed => match joining r with None => Some (Ref (l_life r) (pending r) (Some (i, me, timed))) | Some _ => None end
  | JoinDone v => match l_life r, joining r with Terminated u h, Some _ => if Z.eqb u v then be (Past v) else None | _, _ => None end
  | JoinReturns i rc v =>
      match joining r with
      | None => None
      | Some (j, me, timed) =>
          let out := Some (Ref (l_life r) (pending r) None) in
          if negb (Nat.eqb i j) then None
          else
            match v with
            | Some v => match l_life r with Past u => if Z.eqb rc 0 && Z.eqb u v then out else None | _ => None end
            | None =>
                if Z.eqb rc TIMEDOUT then match l_life r with Alive _ _ _ | Over _ _ _ | Terminated _ _ => if timed then out else None | _ => None end
                else if Z.eqb rc ERROR then match l_life r with Unborn _ => out | _ => if Z.eqb me last then out else None end
                else None
            end
      end
  | Finalized true => match l_life r with Unborn _ | Past _ | NoMore => be NoMore | _ => None end
  | Finalized false => match l_life r with Alive _ _ _ | Over _ _ _ | Terminated _ _ => Some r | _ => None end
  | Is s => if is s (shown (l_life r)) then Some r else None
  | Runs => match l_life r with Alive c h Begun => be (Alive c h Underway) | _ => None end
  | Called c' => match l_life r with Alive c h Underway => if Z.eqb c' c then be (Alive c h InFunction) else None | _ => None end
  | Took n => match l_life r with Alive _ _ InFunction => if Z.eqb n (pending r) then Some (Ref (l_life r) 0 (joining r)) else None | _ => None end
  | Ended v => match l_life r with Alive c h InFunction => be (Over v h false) | _ => None end
  | Leaves => match l_life r with Over v h _ => be (Over v h true) | _ => None end
  | Dies t u => match l_life r with Over v h true => if Z.eqb t h && Z.eqb u v then be (Terminated v h) else None | _ => None end
  end.
Definition newest (last : Z) (e : event) : Z := match e with Started _ h => h | _ => last end.

(** An execution conforms if, as long as callers do what is permitted, nothing is undefined
    and what is seen can be. *)
Fixpoint conforms (w : world) (last : Z) (r : ref) (l : list action) : Prop :=
  match l with
  | [] => True
  | a :: l =>
      permitted r a = true ->
      match step w a with
      | Does w' e => exists r', observe (notify w) (newest last e) r e = Some r' /\ conforms w' (newest last e) r' l
      | Disabled => True
      | Undefined => False
      end
  end.
(** An execution in which callers do what is permitted, what it is for them, and what is
    seen. *)
Fixpoint r_run (w : world) (last : Z) (r : ref) (l : list action) : option (world * Z * ref * list event) :=
  match l with
  | [] => Some (w, last, r, [])
  | a :: l =>
      if permitted r a then
        match step w a with
        | Does w' e =>
            let* r' := observe (notify w) (newest last e) r e in
            let* '(w2, last2, r2, es) := r_run w' (newest last e) r' l in Some (w2, last2, r2, e :: es)
        | _ => None
        end
      else None
  end.
Definition reachable (signals : bool) (h : Z) (w : world) (last : Z) (r : ref) (es : list event) : Prop :=
  exists l, r_run (initial signals h) h r_initial l = Some (w, last, r, es).

(** What became of the thread last started: its context and handle, and in order the calls
    of its function, their ends, its terminations and its joins. *)
Definition milestone (e : event) : bool := match e with Called _ | Ended _ | Dies _ _ | JoinDone _ => true | _ => false end.
Definition chronicle (s : option (Z * Z) * list event) (e : event) : option (Z * Z) * list event :=
  match e with Started c h => (Some (c, h), []) | _ => if milestone e then (fst s, snd s ++ [e]) else s end.
Definition fate (es : list event) : option (Z * Z) * list event := fold_left chronicle es (None, []).
(** Notifications of the thread last started (or not started for want of one): accepted, and
    taken by it. *)
Definition tally (s : Z * Z) (e : event) : Z * Z :=
  match e with Started _ _ | NotStarted true => (0, 0) | Notified _ => (fst s + 1, snd s) | Took n => (fst s, snd s + n) | _ => s end.
Definition tallied (es : list event) : Z * Z := fold_left tally es (0, 0).

(** The thread's own steps. *)
Definition of_thread (a : action) : bool := match a with WorkerRun | WorkerCall | WorkerTake | WorkerEnd _ _ | WorkerLeave | WorkerDie => true | _ => false end.
Definition is_start (a : action) : bool := match a with Start _ _ _ => true | _ => false end.
