(** Model of diminuto_dump.c. The stream is the list of the octets put into it. The
    data is the list of the octets that pointer may read; its length is the argument
    length. [None] is a read beyond the data, or a loop that does not end. *)

From Coq Require Import ZArith List Bool.
From Verif Require Import CInt CUtil.
Import ListNotations.
Local Open Scope Z_scope.

(** The arguments of diminuto_dump_generic() other than the data and its address,
    src/diminuto_dump.c:15-32. [show] stands for what fprintf(fp, addressformat, here)
    prints at line 78: the format is for an unsigned int and the argument is a
    uintptr_t, which C leaves undefined; on x86-64 the low 32 bits are printed. *)
Record format := mkformat {
  show : Z -> list Z;
  upper : bool;
  dot : Z;
  indent : nat;
  bpw : Z;
  wpl : Z;
  addrsep : list Z;
  wordsep : list Z;
  charsep : list Z;
  byteskip : Z;
  charskip : Z;
  lineend : list Z
}.

(** fprintf(fp, datumformat, *pp), src/diminuto_dump.c:49-55 and 95: %2.2X or %2.2x. *)
Definition digit (up : bool) (d : Z) : Z := if d <? 10 then d + 48 else d - 10 + (if up then 65 else 97).
Definition datum (up : bool) (x : Z) : list Z := [digit up (Z.shiftr x 4); digit up (Z.land x 15)].

(** src/diminuto_dump.c:90-99, the octets of a word: what is printed, hh and pp. *)
Fixpoint word_loop (fuel : nat) (f : format) (first last hh word : Z) (pp : list Z) : option (list Z * Z * list Z) :=
  if hh <? word then
    match fuel with
    | O => None
    | S fuel =>
        if negb ((first <=? hh) && (hh <? last)) then
          let* '(o, h, p) := word_loop fuel f first last (u64 (hh + 1)) word pp in
          Some (byteskip f :: byteskip f :: o, h, p)
        else
          match pp with
          | [] => None
          | x :: pp =>
              let* '(o, h, p) := word_loop fuel f first last (u64 (hh + 1)) word pp in
              Some (datum (upper f) x ++ o, h, p)
          end
    end
  else Some ([], hh, pp).

(** src/diminuto_dump.c:86-103, the words of a line. *)
Fixpoint line_loop (fuel : nat) (f : format) (first last hh line : Z) (pp : list Z) : option (list Z * Z * list Z) :=
  if hh <? line then
    match fuel with
    | O => None
    | S fuel =>
        let* '(o, h, p) := word_loop (Z.to_nat (bpw f)) f first last hh (u64 (hh + bpw f)) pp in
        let* '(o', h, p) := line_loop fuel f first last h line p in
        Some (o ++ wordsep f ++ o', h, p)
    end
  else Some ([], hh, pp).

(** src/diminuto_dump.c:110-122, the characters of a line. *)
Fixpoint char_loop (fuel : nat) (f : format) (first last hh line : Z) (pp : list Z) : option (list Z * Z * list Z) :=
  if hh <? line then
    match fuel with
    | O => None
    | S fuel =>
        if negb ((first <=? hh) && (hh <? last)) then
          let* '(o, h, p) := char_loop fuel f first last (u64 (hh + 1)) line pp in
          Some (charskip f :: o, h, p)
        else
          match pp with
          | [] => None
          | x :: pp =>
              let* '(o, h, p) := char_loop fuel f first last (u64 (hh + 1)) line pp in
              Some ((if (32 <=? x) && (x <=? 126) then x else dot f) :: o, h, p)
          end
    end
  else Some ([], hh, pp).

(** src/diminuto_dump.c:72-128, the lines. *)
Fixpoint lines_loop (fuel : nat) (f : format) (first last here end_ : Z) (pointer : list Z) : option (list Z) :=
  if here <? end_ then
    match fuel with
    | O => None
    | S fuel =>
        let line := u64 (here + u64 (bpw f * wpl f)) in
        let* '(o1, _, _) := line_loop (Z.to_nat (wpl f)) f first last here line pointer in
        let* '(o2, hh, pp) := char_loop (Z.to_nat (u64 (bpw f * wpl f))) f first last here line pointer in
        let* o := lines_loop fuel f first last hh end_ pp in
        Some (repeat 32 (indent f) ++ show f here ++ addrsep f ++ o1 ++ charsep f ++ o2 ++ lineend f ++ o)
    end
  else Some [].

(** diminuto_dump_generic(), src/diminuto_dump.c:57-129; [address] is the actual
    address of the data or, if virtualize is set, the argument. *)
Definition dump (f : format) (data : list Z) (address : Z) : option (list Z) :=
  let last := u64 (address + Z.of_nat (length data)) in
  let mask := u64 (u64 (bpw f * wpl f) - 1) in
  let begin := Z.land address (u64 (Z.lnot mask)) in
  let end_ := Z.land (u64 (last + mask)) (u64 (Z.lnot mask)) in
  lines_loop (Z.to_nat (end_ - begin)) f address last begin end_ data.

(** diminuto_dump_general(), inc/com/diag/diminuto/diminuto_dump.h:85-96, with the
    arguments of diminuto_dump_virtual(), lines 120-127. *)
Definition general (sh : Z -> list Z) : format :=
  mkformat sh false 46 0 4 4 [58; 32] [32] [124] 32 32 [124; 10].
