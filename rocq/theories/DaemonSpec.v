(** Specification of daemons. *)

From Coq Require Import ZArith List Bool.
From Verif Require Import DaemonModel.
Import ListNotations.
Local Open Scope Z_scope.

(** Process identifiers are positive; there is always a parent. *)
Definition sane (s : system) : Prop := fork1 s <> 0 /\ fork2 s <> 0 /\ ppid s <> 0.

(** Nothing fails; the wait may be interrupted any number of times. *)
Definition works (s : system) : Prop :=
  1 < ppid s /\ 0 < fork1 s /\ 0 < fork2 s /\ killed s = Not /\ exists n more, waits s = repeat Interrupted n ++ Reaped :: more.

(** The processes that go on with the program of the caller. *)
Definition goes_on (f : fate) : bool := match f with Returned _ => true | _ => false end.

(** The streams are as they were at the start of a program. *)
Definition standard (p : process) : Prop :=
  stdin p = Some (mkstream 0 true) /\ stdout p = Some (mkstream 1 true) /\ stderr p = Some (mkstream 2 true).
