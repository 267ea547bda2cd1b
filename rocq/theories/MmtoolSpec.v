(** What it is to read and write memory behind a driver by a list of options. The words, the
    changes and the options for them are those of MemtoolSpec. *)

From Coq Require Import ZArith List Bool.
From Verif Require Import CUtil NumberSpec DecModel MemtoolModel MemtoolSpec.
From Verif Require DriverModel DriverSpec.
Import ListNotations.
Local Open Scope Z_scope.

Definition eight_octets (d : list Z) : Prop := forall k, (k < 8)%nat -> 0 <= nth k d 0 < 256.

(** A driver that does each call all at once or not at all, as C80 says, and keeps octets.
    A call waits for others; only if it is [busy] may it be interrupted then. *)
Definition honest (base length : Z) (busy : bool) (driver : (Z -> Z) -> DriverModel.call -> Z * DriverModel.op * (Z -> Z)) : Prop :=
  forall m c, let '(rc, user, m') := driver m c in
    DriverSpec.atomic base length c rc user m m' /\ (busy = false -> rc <> -4) /\
    (octet_memory m -> eight_octets (DriverModel.value (DriverModel.arg c)) -> eight_octets (DriverModel.mask (DriverModel.arg c)) -> octet_memory m').

(** What happens, from one setting and memory and with the result of a read that was just
    made, by a list of options: the memory after, what is printed, and the exit status.
    It fails if the device cannot be opened, the place cannot be used, or, if the driver is
    [busy], if the call is interrupted. *)
Definition reachable (base length : Z) (c : setting) : Prop :=
  place c <= length /\ In (width c) [1; 2; 4; 8] /\ (base + place c) mod width c = 0.
Inductive session (base length : Z) (opens busy : bool) : setting -> option Z -> (Z -> Z) -> list flag -> (Z -> Z) -> list Z -> Z -> Prop :=
| session_end c r m : session base length opens busy c r m [] m [] 0
| session_width c r m w s v l m' o x : In w [1; 2; 4; 8] -> spelled s v ->
    session base length opens busy (Setting w v (under c)) None m l m' o x -> session base length opens busy c r m (Width w s :: l) m' o x
| session_mask c r m s v l m' o x : spelled s v ->
    session base length opens busy (Setting (width c) (place c) v) r m l m' o x -> session base length opens busy c r m (Mask s :: l) m' o x
| session_read c r m n l m' o x : opens = true -> reachable base length c -> word m (base + place c) (width c) n ->
    session base length opens busy c (Some n) m l m' o x -> session base length opens busy c r m (Read :: l) m' (dec n ++ [10] ++ o) x
| session_change c r m f k old n m1 l m' o x : opens = true -> reachable base length c -> asks (width c) f k -> word m (base + place c) (width c) old ->
    (forall i, 0 <= i < 8 * width c -> Z.testbit n i = new_bit k (under c) old i) -> becomes m (base + place c) (width c) n m1 ->
    session base length opens busy c None m1 l m' o x -> session base length opens busy c r m (f :: l) m' o x
| session_true c n m l m' o x : n <> 0 -> session base length opens busy c (Some n) m l m' o x -> session base length opens busy c (Some n) m (IfTrue :: l) m' o x
| session_true_not c m l : session base length opens busy c (Some 0) m (IfTrue :: l) m [] 0
| session_false c m l m' o x : session base length opens busy c (Some 0) m l m' o x -> session base length opens busy c (Some 0) m (IfFalse :: l) m' o x
| session_false_not c n m l : n <> 0 -> session base length opens busy c (Some n) m (IfFalse :: l) m [] 0
| session_nothing c r m f l m' o x : In f [Debug; Help] -> session base length opens busy c r m l m' o x -> session base length opens busy c r m (f :: l) m' o x
| session_sleep c r m s v l m' o x : spelled s v -> session base length opens busy c r m l m' o x -> session base length opens busy c r m (Sleep s :: l) m' o x
| session_misspelled c r m f s l : misspelled s -> In f [Mask s; Write s; Set_ s; SetBit s; Clear s; ClearBit s; Sleep s; Width 1 s; Width 2 s; Width 4 s; Width 8 s] ->
    session base length opens busy c r m (f :: l) m [] 1
| session_failure c r m f l : (opens = false \/ busy = true \/ ~ reachable base length c) -> (f = Read \/ exists k, asks (width c) f k) -> session base length opens busy c r m (f :: l) m [] 1.

(** Lists of options that make sense: numbers are spelled or misspelled, bits are in the word,
    and what is asked about was just read. *)
Inductive plan : Z -> bool -> list flag -> Prop :=
| plan_end w r : plan w r []
| plan_width w r w' s v l : In w' [1; 2; 4; 8] -> spelled s v -> plan w' false l -> plan w r (Width w' s :: l)
| plan_mask w r s v l : spelled s v -> plan w r l -> plan w r (Mask s :: l)
| plan_read w r l : plan w true l -> plan w r (Read :: l)
| plan_change w r f k l : asks w f k -> plan w false l -> plan w r (f :: l)
| plan_condition w f l : In f [IfTrue; IfFalse] -> plan w true l -> plan w true (f :: l)
| plan_nothing w r f l : In f [Debug; Help] -> plan w r l -> plan w r (f :: l)
| plan_sleep w r s v l : spelled s v -> plan w r l -> plan w r (Sleep s :: l)
| plan_misspelled w r f s l : misspelled s -> In f [Mask s; Write s; Set_ s; SetBit s; Clear s; ClearBit s; Sleep s; Width 1 s; Width 2 s; Width 4 s; Width 8 s] ->
    plan w r (f :: l).
