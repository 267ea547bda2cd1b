(** What C style escape sequences mean, and how octets are escaped. *)

From Coq Require Import ZArith List.
Import ListNotations.
Local Open Scope Z_scope.

(** No NUL. *)
Definition text (s : list Z) : Prop := ~ In 0 s.

(** Letters after a backslash, and the octets they stand for:
    \\ \a \b \f \n \r \t \v. *)
Definition letters : list (Z * Z) :=
  [(92, 92); (97, 7); (98, 8); (102, 12); (110, 10); (114, 13); (116, 9); (118, 11)].

(** The value of a hexadecimal digit. *)
Definition hexval (c d : Z) : Prop :=
  (48 <= c <= 57 /\ d = c - 48) \/ (65 <= c <= 70 /\ d = c - 55) \/ (97 <= c <= 102 /\ d = c - 87).
Definition octal (c : Z) : Prop := 48 <= c <= 55.

(** The text does not go on with such a character. *)
Definition not_next (P : Z -> Prop) (t : list Z) : Prop := match t with [] => True | c :: _ => ~ P c end.
Definition hexadecimal (c : Z) : Prop := exists d, hexval c d.

(** The value of octal digits. *)
Definition octal_value (ds : list Z) : Z := fold_left (fun v c => 8 * v + (c - 48)) ds 0.

(** One element of a text: the text that follows it and the octets it means. *)
Inductive step : list Z -> list Z -> list Z -> Prop :=
| Plain c t : c <> 92 -> step (c :: t) t [c]
| Lonely : step [92] [] []                                          (* backslash at the end *)
| Newline c t : c = 10 \/ c = 13 -> step (92 :: c :: t) t []         (* continued line *)
| Letter c x t : In (c, x) letters -> step (92 :: c :: t) t [x]
| Hex2 h l d e t : hexval h d -> hexval l e -> step (92 :: 120 :: h :: l :: t) t [16 * d + e]
| Hex1 h d t : hexval h d -> not_next hexadecimal t -> step (92 :: 120 :: h :: t) t [d]
| Hex0 t : not_next hexadecimal t -> step (92 :: 120 :: t) (120 :: t) [92]
| Octal ds t : Forall octal ds -> (1 <= length ds <= 3)%nat -> (length ds = 3%nat \/ not_next octal t) ->
    step (92 :: ds ++ t) t [octal_value ds mod 256]
| Other c t : c <> 10 -> c <> 13 -> c <> 120 -> ~ octal c -> (forall x, ~ In (c, x) letters) ->
    step (92 :: c :: t) t [c].

(** The meaning of a whole text. *)
Inductive reads : list Z -> list Z -> Prop :=
| Done : reads [] []
| More s s' out m : step s s' out -> reads s' m -> reads s (out ++ m).

(** The escape sequence for an octet, with a set of further characters that are to
    be escaped. *)
Definition hexchar (d : Z) : Z := if d <? 10 then 48 + d else 87 + d.
Definition controls : list (Z * Z) := (0, 48) :: map (fun p => (snd p, fst p)) letters.
Definition escape (special : list Z) (c : Z) : list Z :=
  match find (fun p => fst p =? c) controls with
  | Some (_, l) => [92; l]
  | None =>
      if existsb (Z.eqb c) special then [92; c]
      else if andb (32 <=? c) (c <=? 126) then [c]
      else [92; 120; hexchar (c / 16); hexchar (c mod 16)]
  end.
Definition specials (special : option (list Z)) : list Z := match special with None => [] | Some s => s end.

(** All octets of a buffer escaped. *)
Definition expansion (special : option (list Z)) (l : list Z) : list Z := flat_map (escape (specials special)) l.

(** No NUL is followed by an octal digit. *)
Definition nul_safe (l : list Z) : Prop := forall a b c, l = a ++ 0 :: b :: c -> ~ octal b.

(** No special character means something else after a backslash. *)
Definition special_safe (special : list Z) : Prop :=
  forall c, In c special -> c <> 120 /\ ~ octal c /\ (forall x, In (c, x) letters -> c = 92).

(** Trimming: the text without its trailing blanks. *)
Definition trimmed (s s' : list Z) : Prop :=
  exists n, s = s' ++ repeat 32 n /\ (s' = [] \/ last s' 0 <> 32).
(** The text ends with exactly that many backslashes. *)
Definition ends_with_backslashes (s : list Z) (n : nat) : Prop :=
  exists r, s = r ++ repeat 92 n /\ (r = [] \/ last r 0 <> 92).
