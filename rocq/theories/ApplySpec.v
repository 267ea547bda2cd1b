(** Specification of shared values in sections: one function after the other. *)

From Coq Require Import ZArith List Bool Arith.
From Verif Require Import ApplyModel.
Import ListNotations.

(** The value after the functions have been applied one after the other, and what each
    thread got. *)
Fixpoint serially {V R} (history : list (nat * (V -> V * R))) (v : V) : V * list (nat * R) :=
  match history with
  | [] => (v, [])
  | (t, f) :: history =>
      let '(v', r) := f v in let '(w, rs) := serially history v' in (w, (t, r) :: rs)
  end.

Definition of_thread {A} (t : nat) (l : list (nat * A)) : list A :=
  map snd (filter (fun x => Nat.eqb (fst x) t) l).

(** The functions of those jobs that have a result, and the results. *)
Fixpoint applied {V R} (js : list (job V R)) (rs : list (option R)) : list (V -> V * R) :=
  match js, rs with
  | j :: js, Some _ :: rs => fn j :: applied js rs
  | _ :: js, None :: rs => applied js rs
  | _, _ => []
  end.
Fixpoint given {R} (rs : list (option R)) : list R :=
  match rs with [] => [] | Some r :: rs => r :: given rs | None :: rs => given rs end.

Definition inside {V R} (s : state V R) (t : nat) : Prop :=
  alive (threads s t) = true /\ at_ (threads s t) <> Out.

Definition spared (a : action) : Prop := match a with Run _ => True | Kill _ => False end.
