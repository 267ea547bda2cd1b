(** Specification for the wiping of a device. *)

From Coq Require Import ZArith List Bool.
From Verif Require Import WipeModel.
Import ListNotations.

(** The pattern: each word is made from that before it. *)
Definition pattern (seed : Z) (n : nat) : list Z :=
  map (fun k => Nat.iter k (fun x => (x * 4294967311 + 17) mod 18446744073709551616)%Z seed) (seq 0 n).

(** Devices of a capacity, in words. What they take is no more than given, and fits. What
    they give is no more than asked for and than there is, and is something as long as there
    is something. *)
Definition takes (capacity : nat) (write : nat -> nat -> answer) : Prop :=
  forall p s n, 0 < s -> write p s = Took n -> 0 < n <= s /\ p + n <= capacity.
Definition gives (capacity : nat) (read : nat -> nat -> option nat) : Prop :=
  forall p s n, p <= capacity -> read p s = Some n -> n <= s /\ p + n <= capacity /\ (n = 0 -> 0 < s -> p = capacity).

(** One that works: what does not fit is refused for want of space, and anything else is
    taken, at least a sector of it, as long as it is in sectors; all can be read. *)
Definition writes (capacity sector : nat) (write : nat -> nat -> answer) : Prop :=
  forall p s, 0 < s -> (exists b, s = b * sector) -> if capacity <? p + s then write p s = NoSpace else exists k, write p s = Took (k * sector) /\ 0 < k * sector <= s.
Definition reads (capacity : nat) (read : nat -> nat -> option nat) : Prop :=
  gives capacity read /\ forall p s, p <= capacity -> read p s <> None.
