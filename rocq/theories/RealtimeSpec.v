(** What number a file begins with. *)

From Coq Require Import ZArith List Bool Ascii String.
Import ListNotations.
Local Open Scope Z_scope.

Definition is_space (c : Z) : Prop := c = 32 \/ 9 <= c <= 13.
Definition is_digit (c : Z) : Prop := 48 <= c <= 57.
(** The digits of a number, the last of which is that of ones. *)
Inductive digits_of : list Z -> Z -> Prop :=
| Ones d : is_digit d -> digits_of [d] (d - 48)
| More ds n d : digits_of ds n -> is_digit d -> digits_of (ds ++ [d]) (10 * n + (d - 48)).
Inductive sign_of : list Z -> Z -> Prop := None' : sign_of [] 1 | Plus : sign_of [43] 1 | Minus : sign_of [45] (-1).
(** White space, a sign perhaps, the digits, and anything else. *)
Definition begins_with (cs : list Z) (n : Z) : Prop :=
  exists white sign s ds m rest, cs = white ++ sign ++ ds ++ rest /\ Forall is_space white /\ sign_of sign s /\ digits_of ds m /\
    (forall c r, rest = c :: r -> ~ is_digit c) /\ n = s * m.
Definition blank (cs : list Z) : Prop := Forall is_space cs.
Definition is_int (n : Z) : Prop := -2147483648 <= n <= 2147483647.
Definition octets (s : string) : list Z := map (fun c => Z.of_nat (nat_of_ascii c)) (list_ascii_of_string s).
Definition default_path : string := "/sys/kernel/realtime".
