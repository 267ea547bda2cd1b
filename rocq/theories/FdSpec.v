(** What bounded transfers and signal counting mean. *)

From Coq Require Import ZArith List Bool.
From Verif Require Import CInt FdModel.
Import ListNotations.
Local Open Scope Z_scope.

Definition sum (l : list nat) : nat := fold_right Nat.add O l.
Definition zsum (l : list Z) : Z := fold_right Z.add 0 l.

(** The thread an action is about. *)
Definition of_thread (t : nat) (a : action) : Prop := match a with Arrive u | Step u => u = t end.

(** What a check in progress has taken from the counter and not yet returned. *)
Definition taken (l : local) : Z :=
  match at_ l with Cleared v | Unmasked v => v | _ => 0 end.

(** The thread is not in a handler, and not in a check. *)
Definition quiet (l : local) : Prop := handler l = None /\ at_ l = Outside.
