(** What it is to read and write memory by a list of options. *)

From Coq Require Import ZArith List Bool.
From Verif Require Import CUtil NumberSpec MemtoolModel.
Import ListNotations.
Local Open Scope Z_scope.

(** The number that an argument spells. *)
Definition spelled (s : list Z) (v : Z) : Prop := exists n, numeral s n /\ v = (if Z.abs n <? 2 ^ 64 then n mod 2 ^ 64 else 2 ^ 64 - 1).
(** An argument that spells none. *)
Definition misspelled (s : list Z) : Prop := s <> [] /\ forall n, ~ numeral s n.

Definition octet_memory (m : Z -> Z) : Prop := forall a, 0 <= m a < 256.
(** There is the number at that place: the least significant octet is first. *)
Definition word (m : Z -> Z) (a w n : Z) : Prop := 0 <= n < 2 ^ (8 * w) /\ forall k, 0 <= k < w -> m (a + k) = (n / 2 ^ (8 * k)) mod 256.
(** There is that number at that place afterward, and nothing else has changed. *)
Definition becomes (m : Z -> Z) (a w n : Z) (m' : Z -> Z) : Prop := word m' a w n /\ forall b, ~ a <= b < a + w -> m' b = m b.

(** What is to be done to a word. *)
Inductive change := ToValue (v : Z) | SetOnes (v : Z) | SetOne (n : Z) | ClearOnes (v : Z) | ClearOne (n : Z).
(** Each bit of the new word, from the old one and the mask. *)
Definition new_bit (c : change) (mask old i : Z) : bool :=
  match c with
  | ToValue v => Z.testbit v i
  | SetOnes v => Z.testbit v i || (Z.testbit old i && negb (Z.testbit mask i))
  | SetOne n => (i =? n) || (Z.testbit old i && negb (Z.testbit mask i))
  | ClearOnes v => Z.testbit old i && negb (Z.testbit v i)
  | ClearOne n => negb (i =? n) && Z.testbit old i
  end.
(** The option for it, with its argument; a bit must be in the word. *)
Definition asks (w : Z) (f : flag) (c : change) : Prop :=
  match f, c with
  | Write s, ToValue v => spelled s v
  | Set_ s, SetOnes v => spelled s v
  | SetBit s, SetOne n => spelled s n /\ n < 8 * w
  | Clear s, ClearOnes v => spelled s v
  | ClearBit s, ClearOne n => spelled s n /\ n < 8 * w
  | _, _ => False
  end.
(** A write does not read; the others read once and then write once. *)
Definition accesses (c : change) (a w n : Z) : list access :=
  match c with ToValue _ => [Store a w n] | _ => [Load a w; Store a w n] end.

(** How wide, where and with what mask. *)
Record setting := Setting { width : Z; place : Z; under : Z }.

(** What happens, from one setting and memory, and with the result of a read that was just
    made, by a list of options: the memory after, what is printed, the accesses, and the exit
    status. With a region, the places are from its start, and it can be mapped; without, the
    places are addresses, and each can be mapped or not. *)
Definition located (map : Z -> Z -> bool) (region : option (Z * Z)) (c : setting) (a : Z) : Prop :=
  In (width c) [1; 2; 4; 8] /\ a mod width c = 0 /\
  match region with
  | Some (start, len) => map start len = true /\ a = start + place c /\ place c + width c <= len
  | None => map (place c) (width c) = true /\ a = place c
  end.
Inductive session (map : Z -> Z -> bool) (region : option (Z * Z)) : setting -> option Z -> (Z -> Z) -> list flag -> (Z -> Z) -> list Z -> list access -> Z -> Prop :=
| session_end c r m : session map region c r m [] m [] [] 0
| session_width c r m w s v l m' o b x : In w [1; 2; 4; 8] -> spelled s v ->
    session map region (Setting w v (under c)) None m l m' o b x -> session map region c r m (Width w s :: l) m' o b x
| session_mask c r m s v l m' o b x : spelled s v ->
    session map region (Setting (width c) (place c) v) None m l m' o b x -> session map region c r m (Mask s :: l) m' o b x
| session_read c r m a n l m' o b x : located map region c a -> word m a (width c) n ->
    session map region c (Some n) m l m' o b x -> session map region c r m (Read :: l) m' (dec n ++ [10] ++ o) (Load a (width c) :: b) x
| session_change c r m a f k old n m1 l m' o b x : located map region c a -> asks (width c) f k -> word m a (width c) old ->
    (forall i, 0 <= i < 8 * width c -> Z.testbit n i = new_bit k (under c) old i) -> becomes m a (width c) n m1 ->
    session map region c None m1 l m' o b x -> session map region c r m (f :: l) m' o (accesses k a (width c) n ++ b) x
| session_true c n m l m' o b x : n <> 0 -> session map region c (Some n) m l m' o b x -> session map region c (Some n) m (IfTrue :: l) m' o b x
| session_true_not c m l : session map region c (Some 0) m (IfTrue :: l) m [] [] 0
| session_false c m l m' o b x : session map region c (Some 0) m l m' o b x -> session map region c (Some 0) m (IfFalse :: l) m' o b x
| session_false_not c n m l : n <> 0 -> session map region c (Some n) m (IfFalse :: l) m [] [] 0
| session_nothing c r m f l m' o b x : In f [Debug; Core; Help] -> session map region c r m l m' o b x -> session map region c r m (f :: l) m' o b x
| session_sleep c r m s v l m' o b x : spelled s v -> session map region c None m l m' o b x -> session map region c r m (Sleep s :: l) m' o b x
| session_misspelled c r m f s l : misspelled s -> In f [Mask s; Write s; Set_ s; SetBit s; Clear s; ClearBit s; Sleep s; Width 1 s; Width 2 s; Width 4 s; Width 8 s; Region s; Extent s] ->
    session map region c r m (f :: l) m [] [] 1
| session_unmapped c r m f l : region = None -> map (place c) (width c) = false -> (f = Read \/ exists k, asks (width c) f k) -> session map region c r m (f :: l) m [] [] 1.

(** Lists of options that make sense, from a setting, and from whether a read was just made:
    the same, without the memory and without the failures. *)
Inductive plan (map : Z -> Z -> bool) (region : option (Z * Z)) : setting -> bool -> list flag -> Prop :=
| plan_end c r : plan map region c r []
| plan_width c r w s v l : In w [1; 2; 4; 8] -> spelled s v -> plan map region (Setting w v (under c)) false l -> plan map region c r (Width w s :: l)
| plan_mask c r s v l : spelled s v -> plan map region (Setting (width c) (place c) v) false l -> plan map region c r (Mask s :: l)
| plan_read c r a l : located map region c a -> plan map region c true l -> plan map region c r (Read :: l)
| plan_change c r a f k l : located map region c a -> asks (width c) f k -> plan map region c false l -> plan map region c r (f :: l)
| plan_condition c f l : In f [IfTrue; IfFalse] -> plan map region c true l -> plan map region c true (f :: l)
| plan_nothing c r f l : In f [Debug; Core; Help] -> plan map region c r l -> plan map region c r (f :: l)
| plan_sleep c r s v l : spelled s v -> plan map region c false l -> plan map region c r (Sleep s :: l).

(** Where an access is. *)
Definition within (start len : Z) (x : access) : Prop :=
  match x with Load a w => start <= a /\ a + w <= start + len | Store a w _ => start <= a /\ a + w <= start + len end.
