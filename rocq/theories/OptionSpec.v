(** Specification for ports and options. *)

From Coq Require Import ZArith List Bool.
From Verif Require Import CInt NumberSpec.
Import ListNotations.
Local Open Scope Z_scope.

(** A string without the colon it may begin with. *)
Definition plain (s : list Z) : list Z := match s with 58 :: t => t | _ => s end.

(** The seconds to linger: no less than the ticks, and less than one second more; or as
    many as there can be, if those are fewer. *)
Definition lingers (ticks seconds : Z) : Prop :=
  0 <= seconds <= 2 ^ 31 - 1 /\
  ((ticks <= seconds * 1000000000 /\ seconds * 1000000000 < ticks + 1000000000) \/
   (seconds = 2 ^ 31 - 1 /\ seconds * 1000000000 < ticks)).

(** What a string in a buffer is. *)
Fixpoint text (l : list Z) : list Z :=
  match l with [] => [] | c :: l => if c =? 0 then [] else c :: text l end.
