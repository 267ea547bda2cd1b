(** Specification of the dump utility: how a reader gets the octets back from the text. *)

From Coq Require Import ZArith List Bool.
From Verif Require Import CInt DumpModel DumperModel.
Import ListNotations.
Local Open Scope Z_scope.

(** A lower case hexadecimal digit. *)
Definition value (c : Z) : option Z :=
  if (48 <=? c) && (c <=? 57) then Some (c - 48)
  else if (97 <=? c) && (c <=? 102) then Some (c - 87)
  else None.

(** A line is sixteen columns of address, a colon and a space, four words of eight digits
    and a space, a bar, sixteen characters, a bar and a newline: 73 columns. *)
Definition columns : nat := 73.
Definition column (i : nat) : nat := 18 + 2 * i + i / 4.

(** The octet in a place of the line, if the place is not blank. *)
Definition read_cell (line : list Z) (i : nat) : list Z :=
  match value (nth (column i) line 0), value (nth (S (column i)) line 0) with
  | Some h, Some l => [16 * h + l]
  | _, _ => []
  end.
Definition read_line (line : list Z) : list Z := flat_map (read_cell line) (seq 0 16).

(** The lines of a text. *)
Definition line_of (text : list Z) (k : nat) : list Z := firstn columns (skipn (k * columns) text).
Definition read_text (text : list Z) : list Z :=
  flat_map (fun k => read_line (line_of text k)) (seq 0 (length text / columns)).

(** The address and the characters of a line. *)
Definition address_of (line : list Z) : list Z := firstn 16 line.
Definition characters_of (line : list Z) : list Z := firstn 16 (skipn 55 line).
Definition visible (x : Z) : Z := if (32 <=? x) && (x <=? 126) then x else 46.

(** What the utility reads: a hyphen is the standard input, which is at its end after the
    first time. *)
Inductive source := StandardInput | Contents (data : list Z).
Fixpoint inputs (sources : list source) (stdin : list Z) : list (list Z) :=
  match sources with
  | [] => []
  | StandardInput :: sources => stdin :: inputs sources []
  | Contents data :: sources => data :: inputs sources stdin
  end.

(** The argument for it. *)
Definition operand_of (s : source) : operand :=
  match s with StandardInput => Dash | Contents data => Opens data false end.

(** What fits the addresses. *)
Definition fits (data : list Z) : Prop := octets data /\ Z.of_nat (length data) + 16 <= 2 ^ 64.

(** Each input dumped in one piece, from address zero on. *)
Definition dumped (sh : Z -> list Z) (data : list Z) : list Z :=
  match dump (general sh) data 0 with Some text => text | None => [] end.
