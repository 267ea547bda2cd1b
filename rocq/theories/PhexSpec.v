(** Specification of the printed form of octets. *)

From Coq Require Import ZArith List Bool.
From Verif Require Import EscapeSpec.
Import ListNotations.
Local Open Scope Z_scope.

(** The characters printed for an octet. In the usual form these are the C escape
    sequences of [EscapeSpec.escape], the quotes (double, single, question mark) being
    escaped on request. In the hexadecimal form whatever is escaped is \xHH. *)
Definition quotes (esc : bool) : list Z := if esc then [34; 39; 63] else [].
Definition plain (esc : bool) (c : Z) : Prop := 32 <= c <= 126 /\ c <> 92 /\ ~ In c (quotes esc).
Definition token (esc hex : bool) (c : Z) (t : list Z) : Prop :=
  if hex then (plain esc c /\ t = [c]) \/ (~ plain esc c /\ t = [92; 120; hexchar (c / 16); hexchar (c mod 16)])
  else t = escape (quotes esc) c.

(** Tokens set in lines. *)
Fixpoint set (lines : list (list (list Z))) : list Z :=
  match lines with
  | [] => []
  | [l] => concat l
  | l :: rest => concat l ++ 10 :: set rest
  end.

Definition width (line : list (list Z)) : Z := Z.of_nat (length (concat line)).

(** No line is longer than the limit; a line is ended only if its successor's first
    token would not have fitted. *)
Fixpoint filled (limit : Z) (lines : list (list (list Z))) : Prop :=
  match lines with
  | [] => True
  | l :: rest =>
      width l <= limit /\
      match rest with
      | [] => True
      | next :: _ => match next with [] => False | t :: _ => limit < width l + Z.of_nat (length t) end
      end /\ filled limit rest
  end.

(** The text without newlines. *)
Definition without_newlines (s : list Z) : list Z := filter (fun c => negb (c =? 10)) s.

(** Some line of a text: what stands between two newlines. *)
Definition has_line (s line : list Z) : Prop :=
  ~ In 10 line /\ exists a b, s = a ++ line ++ b /\
    (a = [] \/ exists a', a = a' ++ [10]) /\ (b = [] \/ exists b', b = 10 :: b').
