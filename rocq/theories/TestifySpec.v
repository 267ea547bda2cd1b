(** Specification for yes and no: the words that the header lists. *)

From Coq Require Import ZArith List Bool String.
From Verif Require Import PinSpec.
Import ListNotations.
Local Open Scope Z_scope.
Local Open Scope string_scope.

Definition trues : list string := ["closed"; "enabled"; "high"; "true"; "yes"; "on"].
Definition falses : list string := ["open"; "disabled"; "low"; "false"; "no"; "off"].

(** The same letter, small or capital; the same word. *)
Definition alike (c d : Z) : Prop := c = d \/ (97 <= d <= 122 /\ c = d - 32).
Definition spells (s : list Z) (word : string) : Prop := Forall2 alike s (text word).

Definition digit (c : Z) : Prop := 48 <= c <= 57.
