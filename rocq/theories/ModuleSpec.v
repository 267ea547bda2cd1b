(** Specification for loadable modules: loads and unloads that match. *)

From Coq Require Import ZArith List Bool.
From Verif Require Import ModuleModel.
Import ListNotations.
Local Open Scope Z_scope.

(** How often a module was loaded, and unloaded. *)
Fixpoint loads (w : world) (m : Z) (ops : list op) : nat :=
  match ops with
  | [] => 0
  | Load f :: ops => (match module_in w f with Some x => if x =? m then 1 else 0 | None => 0 end) + loads w m ops
  | _ :: ops => loads w m ops
  end.
Fixpoint unloads (m : Z) (ops : list op) : nat :=
  match ops with
  | [] => 0
  | Unload x :: ops => (if x =? m then 1 else 0) + unloads m ops
  | _ :: ops => unloads m ops
  end.
(** No module is unloaded more often than it was loaded, at any time. *)
Definition matched (w : world) (ops : list op) : Prop :=
  forall before after m, ops = before ++ after -> (unloads m before <= loads w m before)%nat.

(** What is returned when all goes well. *)
Definition expected (w : world) (o : op) : Z :=
  match o with Load f => match module_in w f with Some m => m | None => 0 end | Unload _ => 0 end.

Definition present (r : refs) (m : Z) : Prop := r m <> O.
