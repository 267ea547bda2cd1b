(** Arguments that are collapsed and written. *)

From Coq Require Import ZArith List Bool.
From Verif Require Import CUtil EscapeSpec.
Import ListNotations.
Local Open Scope Z_scope.

(** What is not empty and does not start with a NUL. *)
Definition visible (m : list Z) : bool := match m with [] => false | c :: _ => negb (c =? 0) end.
