(** Specification of memory mappings. *)

From Coq Require Import ZArith List Bool.
From Verif Require Import MapModel.
Import ListNotations.
Local Open Scope Z_scope.

(** How often a descriptor is closed; fclose(3) closes it, even if it fails. *)
Definition closes (fd : Z) (cs : list call) : nat :=
  List.length (filter (fun c => match c with Close x | Fclose x => x =? fd | _ => false end) cs).

(** How often something is opened. *)
Definition opens (cs : list call) : nat := List.length (filter (fun c => match c with Open => true | _ => false end) cs).

(** The system: descriptors, addresses and pages. A mapping is one of pages, does not
    begin at zero and ends below 2^64. *)
Definition sane (sys : system) (pagesize : Z) : Prop :=
  forall size fd offset, 0 <= sys (Mmap size fd offset) ->
    0 < sys (Mmap size fd offset) /\ sys (Mmap size fd offset) + size <= 2 ^ 64 /\ 0 < size /\ (sys (Mmap size fd offset)) mod pagesize = 0.
