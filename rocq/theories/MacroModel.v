(** Model of macros that are programs of a kind: those of diminuto_minmaxof.h, of
    diminuto_swap.h, and those of diminuto_unittest.h that end a test. *)

From Coq Require Import ZArith List Bool.
From Verif Require Import CUtil.
Import ListNotations.
Local Open Scope Z_scope.

(** An integer type: whether it is signed and the number of its bits. Conversion to it; for
    signed types as gcc defines it. *)
Record type := Type_ { signed : bool; bits : Z }.
Definition convert (t : type) (x : Z) : Z :=
  if signed t then (x + 2 ^ (bits t - 1)) mod 2 ^ bits t - 2 ^ (bits t - 1) else x mod 2 ^ bits t.
(** The integer promotions (C11 6.3.1.1p2), where int has 32 bits. *)
Definition promote (t : type) : type := if bits t <? 32 then Type_ true 32 else t.
(** The operators ~ and <<, on an operand of the type. gcc does not use the latitude that
    the standard gives it with a signed <<, and yields the bits. *)
Definition complement (t : type) (x : Z) : Z := convert (promote t) (Z.lnot x).
Definition leftshift (t : type) (x n : Z) : Z := convert (promote t) (x * 2 ^ n).

(** inc/com/diag/diminuto/diminuto_widthof.h:21 diminuto_widthof. *)
Definition widthof (t : type) : Z := bits t / 8 * 8.
(** inc/com/diag/diminuto/diminuto_minmaxof.h:24 diminuto_issigned. *)
Definition issigned (t : type) : bool := convert t (complement t (convert t 0)) <? 0.
(** inc/com/diag/diminuto/diminuto_minmaxof.h:38 diminuto_minimumof. *)
Definition minimumof (t : type) : Z :=
  if issigned t then convert t (leftshift t (convert t 1) (widthof t - 1)) else convert t 0.
(** inc/com/diag/diminuto/diminuto_minmaxof.h:52 diminuto_maximumof. *)
Definition maximumof (t : type) : Z :=
  if issigned t then convert t (complement t (leftshift t (convert t 1) (widthof t - 1))) else convert t (complement t (convert t 0)).

(** inc/com/diag/diminuto/diminuto_swap.h:26-31 DIMINUTO_SWAP: on the objects at two
    addresses. *)
Definition store (memory : Z -> Z) (a x : Z) : Z -> Z := fun b => if b =? a then x else memory b.
Definition swap (memory : Z -> Z) (a b : Z) : Z -> Z :=
  let memory := store memory a (Z.lxor (memory a) (memory b)) in
  let memory := store memory b (Z.lxor (memory b) (memory a)) in
  store memory a (Z.lxor (memory a) (memory b)).

(** What a unit test does to its counters: inc/com/diag/diminuto/diminuto_unittest.h:152-162
    TEST up to 171-183 STATUS, 190-197 FAILURE and 306-320 EXPECT, 284-298 ADVISE, 243-254
    FATAL and 206-215 EXIT. Simplifications: one thread (the Apply model has the counters
    with threads); PANIC and ASSERT, which dump core; overflow, at 2^31. *)
Inductive item :=
| Test (body : list item)
| Failure
| Expect (condition : bool)
| Advise (condition : bool)
| Fatal.

(** src/diminuto_unittest.c:21-22: tests and errors; and for each STATUS whether it said that
    it was a success. *)
Record counters := Counters { tests : Z; errors : Z; statuses : list bool }.
Definition erring (c : counters) : counters := Counters (tests c) (errors c + 1) (statuses c).

(** [true] is that the process goes on; FATAL exits. *)
Fixpoint item_run (i : item) (c : counters) : bool * counters :=
  match i with
  | Failure => (true, erring c)
  | Expect condition => (true, if condition then c else erring c)
  | Advise condition => (true, c)
  | Fatal => (false, erring c)
  | Test body =>
      let local := errors c in
      let '(on, c) := (fix items (l : list item) (c : counters) : bool * counters :=
        match l with
        | [] => (true, c)
        | i :: l => let '(on, c) := item_run i c in if on then items l c else (false, c)
        end) body (Counters (tests c + 1) (errors c) (statuses c)) in
      if on then (true, Counters (tests c) (errors c) (statuses c ++ [errors c - local =? 0])) else (false, c)
  end.
Fixpoint items_run (l : list item) (c : counters) : bool * counters :=
  match l with
  | [] => (true, c)
  | i :: l => let '(on, c) := item_run i c in if on then items_run l c else (false, c)
  end.

(** inc/com/diag/diminuto/diminuto_unittest.h:86-88 and 214: the argument of exit(3), of
    which the parent sees the low eight bits. *)
Definition MAXIMUM : Z := 255.
Definition exit_code (c : counters) : Z := if errors c >? MAXIMUM then MAXIMUM else errors c.
Definition exit_status (c : counters) : Z := Z.land (exit_code c) 255.
(** A program: its tests, and EXIT. *)
Definition program (l : list item) : Z * counters :=
  let '(_, c) := items_run l (Counters 0 0 []) in (exit_status c, c).
