(** What conversions of time mean. *)

From Coq Require Import ZArith List.
From Verif Require Import CInt TimeModel.
Import ListNotations.
Local Open Scope Z_scope.

(** Truncated towards zero: the integer part of the quotient x / y. *)
Definition truncated (x y q : Z) : Prop :=
  (0 <= x -> q * y <= x < (q + 1) * y) /\ (x <= 0 -> (q - 1) * y < x <= q * y).

(** The names of the military time zones, from 12 hours west to 12 hours east of
    Greenwich: YXWVUTSRQPON Z ABCDEFGHIKLM. *)
Definition zone (hours : Z) : Z :=
  if hours =? 0 then 90
  else if hours <? 0 then 77 - hours                            (* N, O, ... Y to the west *)
  else if hours <=? 9 then 64 + hours else 65 + hours.          (* A, ... I, K, L, M *)

(** A library whose timegm undoes its gmtime_r. *)
Definition calendar (gmtime : Z -> option date) (timegm : date -> Z * Z) : Prop :=
  (forall s, -9223372037 <= s <= 9223372037 -> exists tm, gmtime s = Some tm /\
     -2147483648 <= year tm <= 2147481747 /\ 0 <= month tm <= 11 /\ timegm tm = (s, 0)) /\
  gmtime (-1) = Some (Date 69 11 31 23 59 59).

(** A sequence of values each one more than the one before, modulo 2^64; the error
    flag is set from the first wrap on. *)
Definition nth_value (start k : Z) : Z * bool := ((start + k) mod 2 ^ 64, 2 ^ 64 <=? start + k).
