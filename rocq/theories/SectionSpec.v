(** Specification of the code sections. *)

From Coq Require Import ZArith List Bool.
From Verif Require Import SectionModel.
Import ListNotations.
Local Open Scope Z_scope.

(** SIGKILL and SIGSTOP are never blocked. *)
Definition possible (mask : Z) : Prop := Z.testbit mask 9 = false /\ Z.testbit mask 19 = false.
Definition signal (s : Z) : Prop := 1 <= s <= 64 /\ s <> 32 /\ s <> 33.

(** The code has no serialized section in it. *)
Fixpoint cleaned (c : code) : Prop :=
  match c with
  | Seq a b => cleaned a /\ cleaned b
  | Begin (Serialized _) _ | Try (Serialized _) _ _ => False
  | Begin _ body | Try _ _ body => cleaned body
  | _ => True
  end.
(** The code is not cancelled, and does not return, anywhere. *)
Fixpoint undisturbed (c : code) : Prop :=
  match c with
  | Seq a b => undisturbed a /\ undisturbed b
  | Begin _ body | Try _ _ body => undisturbed body
  | Cancel | Return => False
  | _ => True
  end.
(** The application itself sets the mask nowhere; or only in uninterruptible sections. *)
Fixpoint untouched (c : code) : Prop :=
  match c with
  | Seq a b => untouched a /\ untouched b
  | Begin _ body | Try _ _ body => untouched body
  | Setmask _ => False
  | _ => True
  end.
Fixpoint scoped (c : code) : Prop :=
  match c with
  | Seq a b => scoped a /\ scoped b
  | Begin (Uninterruptible _) _ | Try (Uninterruptible _) _ _ => True
  | Begin _ body | Try _ _ body => scoped body
  | Setmask _ => False
  | _ => True
  end.

(** The thread goes on, or is cancelled. *)
Definition over (o : outcome) : Prop := o <> Aborted /\ o <> Hung.

(** What is blocked is still blocked. *)
Definition keeps (before after : Z) : Prop := forall s, Z.testbit before s = true -> Z.testbit after s = true.
