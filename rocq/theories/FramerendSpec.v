(** What a receiver keeps for the application when it takes nothing: the buffer and its size,
    and the number and the length of the last datagram received and the number before it. *)

From Coq Require Import ZArith List.
From Verif Require Import FramerModel.
Import ListNotations.
Local Open Scope Z_scope.

Definition undisturbed (f f' : framer) : Prop :=
  buffer f' = buffer f /\ size f' = size f /\ sequence f' = sequence f /\ previous f' = previous f /\
  length_ f' = length_ f /\ generated f' = generated f.
