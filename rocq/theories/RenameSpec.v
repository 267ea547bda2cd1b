(** What renaming and exchanging mean. *)

From Coq Require Import ZArith List Bool.
From Verif Require Import CInt DiskModel RenameModel.
Import ListNotations.
Local Open Scope Z_scope.

(** The arguments that may be given: -x or not, and two names. *)
Inductive usage : list Z -> bool -> Z -> Z -> Prop :=
  | Plain a b : a <> DASH_X -> usage [a; b] false a b
  | Exchanging a b : usage [DASH_X; a; b] true a b.

(** What is asked for can be done: the first file is there; and the second is there if
    and only if they are to be exchanged. *)
Definition possible (d : disk) (exchange : bool) (a b : Z) : Prop :=
  entry d a <> None /\ (if exchange then entry d b <> None else entry d b = None).

(** The contents of all files are what they were, and the two names changed places. *)
Definition exchanged (d d' : disk) (a b : Z) : Prop :=
  data d' = data d /\ spare d' = spare d /\ entry d' a = entry d b /\ entry d' b = entry d a /\
  forall n, n <> a -> n <> b -> entry d' n = entry d n.

(** Each file has as many names as it had: the names were only moved about. *)
Definition rearranged (d d' : disk) : Prop :=
  data d' = data d /\ exists f g : Z -> Z, (forall n, g (f n) = n) /\ (forall n, f (g n) = n) /\ forall n, entry d' n = entry d (f n).
