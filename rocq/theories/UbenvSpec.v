(** Specification for the environment: the checksum bit by bit, and the format. *)

From Coq Require Import ZArith List Bool.
Import ListNotations.
Local Open Scope Z_scope.

(** The shift register of the checksum: a bit goes in, the least significant goes out. *)
Definition feed (s : Z) (bit : bool) : Z :=
  Z.lxor (Z.shiftr s 1) (if xorb (Z.odd s) bit then 0xEDB88320 else 0).
Definition bits (o : Z) : list bool := map (Z.testbit o) [0; 1; 2; 3; 4; 5; 6; 7].
Definition CRC (l : list Z) : Z := Z.lxor (fold_left feed (flat_map bits l) 0xffffffff) 0xffffffff.

(** A word in memory, in either byte order. *)
Definition holds (big : bool) (l : list Z) (w : Z) : Prop :=
  exists a b c d, (if big then l = [d; c; b; a] else l = [a; b; c; d]) /\ w = a + 256 * b + 65536 * c + 16777216 * d.

(** An environment: variables, each a keyword, an equal sign, a value and a NUL; then a NUL;
    then anything. No keyword at the begin is empty, as the NUL would not be the end. *)
Inductive environment : list Z -> list (list Z * list Z) -> Prop :=
| env_end padding : environment (0 :: padding) []
| env_more k v rest es : ~ In 0 k -> ~ In 61 k -> ~ In 0 v -> environment rest es ->
    environment (k ++ [61] ++ v ++ [0] ++ rest) ((k, v) :: es).

Definition begins (k n : list Z) : Prop := exists t, n = k ++ t.
