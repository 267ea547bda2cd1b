(** What the device gives: octets, and nothing else. *)

From Coq Require Import ZArith List Bool.
From Verif Require Import CInt FramerSpec.
Import ListNotations.
Local Open Scope Z_scope.

(** What can be carried by a frame to a receiver that has so much room. *)
Definition fits (room : nat) (d : list Z) : Prop := d <> [] /\ octets d /\ (length d <= room)%nat.
