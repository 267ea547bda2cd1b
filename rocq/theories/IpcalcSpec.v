(** Addresses of four octets, and what is calculated with them. *)

From Coq Require Import ZArith List Bool.
From Verif Require Import CUtil NumberSpec.
Import ListNotations.
Local Open Scope Z_scope.

Record address := Address { first : Z; second : Z; third : Z; fourth : Z }.
Definition proper (a : address) : Prop := 0 <= first a < 256 /\ 0 <= second a < 256 /\ 0 <= third a < 256 /\ 0 <= fourth a < 256.
(** As people write them. *)
Definition dotted (a : address) : list Z := dec (first a) ++ [46] ++ dec (second a) ++ [46] ++ dec (third a) ++ [46] ++ dec (fourth a).
(** The library knows the string for that address: the octets are in memory in this order. *)
Definition known (aton : list Z -> option Z) (s : list Z) (a : address) : Prop :=
  proper a /\ aton s = Some (first a + 256 * second a + 65536 * third a + 16777216 * fourth a).

(** The bits of one octet where there are ones in the mask and of another where there are
    zeros. *)
Definition merged (mask x y r : Z) : Prop := 0 <= r < 256 /\ forall i, 0 <= i < 8 -> Z.testbit r i = if Z.testbit mask i then Z.testbit x i else Z.testbit y i.
Definition merge (mask x y r : address) : Prop :=
  merged (first mask) (first x) (first y) (first r) /\ merged (second mask) (second x) (second y) (second r) /\
  merged (third mask) (third x) (third y) (third r) /\ merged (fourth mask) (fourth x) (fourth y) (fourth r).
Definition ones : address := Address 255 255 255 255.

(** The classes of the networks are by the first octet. *)
Definition natural (a : address) : address :=
  if first a <? 128 then Address 255 0 0 0 else if first a <? 192 then Address 255 255 0 0 else Address 255 255 255 0.
(** The request for help. *)
Definition help : list Z := [45; 63].
