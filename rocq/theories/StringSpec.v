(** Strings and joining. *)

From Coq Require Import ZArith List.
Import ListNotations.
Local Open Scope Z_scope.

(** The octets of a string: no NUL among them. *)
Definition text (s : list Z) : Prop := ~ In 0 s.

(** Overwrite the beginning of a buffer. *)
Definition over (buf new : list Z) : list Z := new ++ skipn (length new) buf.

(** Arguments separated by single blanks. *)
Fixpoint join (args : list (list Z)) : list Z :=
  match args with
  | [] => []
  | [s] => s
  | s :: rest => s ++ 32 :: join rest
  end.

(** The arguments in a vector of which [argc] are counted: those before the first
    null pointer. *)
Fixpoint arguments (argc : nat) (argv : list (option (list Z))) : list (list Z) :=
  match argc, argv with
  | S argc, Some s :: argv => s :: arguments argc argv
  | _, _ => []
  end.

(** The vector can be read: it has that many elements or a null pointer. *)
Definition readable (argc : nat) (argv : list (option (list Z))) : Prop :=
  (argc <= length argv)%nat \/ In None argv.
