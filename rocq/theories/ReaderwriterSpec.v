(** Specification for the reader writer locks: everything is told from the events. *)

From Coq Require Import ZArith List Bool.
From Verif Require Import ReaderwriterModel.
Import ListNotations.
Local Open Scope Z_scope.

Fixpoint remove_one (t : Z) (l : list Z) : list Z :=
  match l with [] => [] | x :: l' => if x =? t then l' else x :: remove_one t l' end.

(** The threads that have the lock for reading, and those that have it for writing: a
    call to begin has returned zero, and no call to end has been made since. *)
Definition note_reader (l : list Z) (e : event) : list Z :=
  match e with
  | Begun t READER 0 => t :: l
  | Ended t READER _ => remove_one t l
  | _ => l
  end.
Definition note_writer (l : list Z) (e : event) : list Z :=
  match e with
  | Begun t WRITER 0 => t :: l
  | Ended t WRITER _ => remove_one t l
  | _ => l
  end.
Definition readers (tr : list event) : list Z := fold_left note_reader tr [].
Definition writers (tr : list event) : list Z := fold_left note_writer tr [].

(** The threads that wait, in order: those with priority in front. *)
Definition without (t : Z) (l : list (Z * role)) : list (Z * role) := filter (fun p => negb (fst p =? t)) l.
Definition note_pending (l : list (Z * role)) (e : event) : list (Z * role) :=
  match e with
  | Waits t r false => l ++ [(t, r)]
  | Waits t r true => (t, r) :: l
  | Grants t _ | Begun t _ _ => without t l
  | _ => l
  end.
Definition pending (tr : list event) : list (Z * role) := fold_left note_pending tr [].

(** The threads the lock has been given to, whose calls have not returned yet. *)
Definition note_granted (l : list (Z * role)) (e : event) : list (Z * role) :=
  match e with
  | Grants t r => (t, r) :: l
  | Begun t _ _ => without t l
  | _ => l
  end.
Definition granted (tr : list event) : list (Z * role) := fold_left note_granted tr [].

(** The largest number of threads that waited at the same time, since the last call that
    asked for it. *)
Definition note_peak (p : list (Z * role) * Z) (e : event) : list (Z * role) * Z :=
  let l := note_pending (fst p) e in
  match e with
  | Maximal _ => (l, Z.of_nat (length l))
  | _ => (l, Z.max (snd p) (Z.of_nat (length l)))
  end.
Definition peak (tr : list event) : Z := snd (fold_left note_peak tr ([], 0)).

(** What an application may do: a thread that is not in a call begins, or ends what it
    has begun; a thread that waits wakes up, at any time and for any reason. There are
    fewer than 2147483647 readers and waiting threads. *)
Definition LIMIT : Z := 2147483647.
Definition permitted (tr : list event) (s : rw) (a : act) : Prop :=
  match a with
  | Begin t r _ _ _ => (r = READER \/ r = WRITER) /\ waits s t = None /\
      Z.of_nat (length (readers tr)) + Z.of_nat (length (granted tr)) + Z.of_nat (length (pending tr)) < LIMIT
  | Wake t _ => waits s t <> None
  | End t r => waits s t = None /\ ((r = READER /\ In t (readers tr)) \/ (r = WRITER /\ In t (writers tr)))
  | Debug _ | Maximum => True
  end.

(** Executions: any interleaving. *)
Inductive exec (tr0 : list event) (s0 : rw) : list act -> list event -> rw -> Prop :=
  | X_start : exec tr0 s0 [] tr0 s0
  | X_step l tr s a s' es :
      exec tr0 s0 l tr s -> permitted tr s a -> step s a = Some (s', es) -> exec tr0 s0 (l ++ [a]) (tr ++ es) s'.
Definition run (tr : list event) (s : rw) : Prop := exists l, exec [] init l tr s.

(** The waiting threads the lock is given to when it is free: the writer that is first,
    or all the readers that are first. *)
Fixpoint leading (l : list (Z * role)) : list (Z * role) :=
  match l with (t, READER) :: l' => (t, READER) :: leading l' | _ => [] end.
Definition next_batch (l : list (Z * role)) : list (Z * role) :=
  match l with (t, WRITER) :: _ => [(t, WRITER)] | _ => leading l end.

Definition is_end (a : act) : bool := match a with End _ _ => true | _ => false end.
Definition no_priority (a : act) : Prop := match a with Begin _ _ _ true _ => False | _ => True end.

(** Executions one can compute, for the examples. *)
Definition permitted_b (tr : list event) (s : rw) (a : act) : bool :=
  match a with
  | Begin t r _ _ _ => (role_eqb r READER || role_eqb r WRITER) && (match waits s t with None => true | _ => false end) &&
      (Z.of_nat (length (readers tr)) + Z.of_nat (length (granted tr)) + Z.of_nat (length (pending tr)) <? LIMIT)
  | Wake t _ => match waits s t with None => false | _ => true end
  | End t r => (match waits s t with None => true | _ => false end) &&
      ((role_eqb r READER && existsb (Z.eqb t) (readers tr)) || (role_eqb r WRITER && existsb (Z.eqb t) (writers tr)))
  | Debug _ | Maximum => true
  end.
Fixpoint play (tr : list event) (s : rw) (l : list act) : option (list event * rw) :=
  match l with
  | [] => Some (tr, s)
  | a :: l' => if permitted_b tr s a then match step s a with Some (s', es) => play (tr ++ es) s' l' | None => None end else None
  end.

(** The value that was last asked for; debugging begins as disabled. *)
Definition last_debug (l : list act) : bool := fold_left (fun b a => match a with Debug v => v | _ => b end) l false.
