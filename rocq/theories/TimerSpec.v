(** What a timer that calls a function is to those who use it. *)

From Coq Require Import ZArith List Bool Arith.
From Verif Require Import CUtil TimerModel.
Import ListNotations.
Local Open Scope Z_scope.

(** With what context the function may be called, if it may; whether it is running; whether
    the timer is known to be at rest; who is starting or stopping it; whether the last stop
    timed out; whether the timer is finalized. *)
Record ref := Ref { may : option Z; running : bool; rest : bool; busy : option nat; failed : bool; over : bool }.
Definition r_initial : ref := Ref None false true None false false.

(** What callers must see to: to start and to finalize only a timer known to be at rest (it
    was stopped, or its state has been seen to be IDLE); to do so one at a time; not to stop
    it again after that failed; nothing after it was finalized; and to finalize it only if
    it is not periodic. And what they must hope for: that the function has returned before a
    periodic timer expires again. *)
Definition permitted (p : bool) (w : world) (r : ref) (a : action) : Prop :=
  match a with
  | Start _ _ _ => busy r = None /\ rest r = true /\ over r = false
  | Stop _ => busy r = None /\ failed r = false /\ over r = false
  | Fini => busy r = None /\ rest r = true /\ over r = false /\ p = false
  | GetState => over r = false
  | Expire _ => p = true -> forall t, threads w t = Nobody
  | _ => True
  end.

(** What can be seen, and what comes of it. None: cannot be seen. *)
Definition observe (p : bool) (r : ref) (e : event) : option ref :=
  match e with
  | Silent | Expires => Some r
  | Starts i c => Some (Ref (Some c) (running r) false (Some i) false (over r))
  | StartReturns i => match busy r with Some j => if Nat.eqb i j then Some (Ref (may r) (running r) (rest r) None (failed r) (over r)) else None | None => None end
  | Stops i => Some (Ref (may r) (running r) (rest r) (Some i) (failed r) (over r))
  | StopReturns i ok =>
      match busy r with
      | Some j =>
          if negb (Nat.eqb i j) then None
          else if ok then if running r then None else Some (Ref None false true None false (over r))
          else Some (Ref (may r) (running r) (rest r) None true (over r))
      | None => None
      end
  | Is IDLE => if running r then None else Some (Ref None false true (busy r) false (over r))
  | Is ARM => if rest r || failed r then None else Some r
  | Is DISARM => match busy r with None => if failed r && negb (rest r) then Some r else None | Some _ => if rest r then None else Some r end
  | Ends => Some (Ref (may r) (running r) (rest r) (busy r) (failed r) true)
  | Calls c => match may r with Some d => if Z.eqb c d && negb (running r) && negb (over r) then Some (Ref (if p then may r else None) true (rest r) (busy r) (failed r) (over r)) else None | None => None end
  | Returns _ => if running r then Some (Ref (may r) false (rest r) (busy r) (failed r) (over r)) else None
  end.

(** An execution conforms if, as long as what is done is permitted, nothing is undefined and
    what is seen can be. *)
Fixpoint conforms (p : bool) (w : world) (r : ref) (l : list action) : Prop :=
  match l with
  | [] => True
  | a :: l =>
      permitted p w r a ->
      match step w a with
      | Does w' e => exists r', observe p r e = Some r' /\ conforms p w' r' l
      | Disabled => True
      | Undefined => False
      end
  end.
(** The states that such executions reach, when each action is as [q] has it. *)
Inductive reachable (q : action -> Prop) (p : bool) : world -> ref -> Prop :=
  | reach_initial : reachable q p (initial p) r_initial
  | reach_step w r a w' e r' :
      reachable q p w r -> q a -> permitted p w r a -> step w a = Does w' e -> observe p r e = Some r' -> reachable q p w' r'.
Definition anything (a : action) : Prop := True.
(** A timer is only ever started with a time that is not zero. *)
Definition positive (a : action) : Prop := match a with Start _ _ ticks => 0 < ticks | _ => True end.
(** What goes on while a caller waits in its stop: the timer expires, its threads run, and
    the caller resumes. *)
Definition waits (i : nat) (a : action) : Prop := match a with Expire _ | Proceed _ => True | Step j => j = i | _ => False end.
(** What goes on while the function itself, called in thread [t], stops its timer as caller
    [i]: anything but that the function returns. *)
Definition within (i t : nat) (a : action) : Prop :=
  match a with Expire _ => True | Proceed u => u <> t | Step j | Spurious j | Timeout j => j = i | GetState => True | _ => False end.
