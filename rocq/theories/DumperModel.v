(** Model of bin/dump.c. A stream that is open is the octets that can be read from it before
    its end, or before an error, and whether there is an error. Simplifications: the options
    have been read already, by getopt(3), and -t is an argument; messages; everything that
    is put is taken; what is put to each of the two streams is given, and not how the two are
    interleaved; the end of the standard input stays its end. *)

From Coq Require Import ZArith List Bool.
From Verif Require Import CInt CUtil DumpModel.
Import ListNotations.
Local Open Scope Z_scope.

(** bin/dump.c:43-54 dump(), what it puts to out and what it copies if out is stderr. Each
    fread(3) of line 49 takes sixteen octets if there are as many. *)
Fixpoint dump_stream (fuel : nat) (sh : Z -> list Z) (data : list Z) (offset : Z) : option (list Z * list Z) :=
  match fuel with
  | O => None
  | S fuel =>
      let buffer := firstn 16 data in
      if 0 <? Z.of_nat (length buffer) then
        let* o := dump (general sh) buffer offset in
        let* p := dump_stream fuel sh (skipn 16 data) (u64 (offset + Z.of_nat (length buffer))) in
        Some (o ++ fst p, buffer ++ snd p)
      else Some ([], [])
  end.

(** An argument, as strcmp(3) and fopen(3) find it: the standard input, a file that can be
    opened, or one that cannot. *)
Inductive operand := Dash | Opens (data : list Z) (error : bool) | Fails.

(** bin/dump.c:84-109, the arguments: what is put to out, what is copied, the exit status. *)
Fixpoint operands (sh : Z -> list Z) (args : list operand) (stdin : list Z) (bad : bool) : option (list Z * list Z * Z) :=
  match args with
  | [] => Some ([], [], 0)
  | Fails :: _ => Some ([], [], 2)
  | arg :: args =>
      let '(data, error, stdin', bad') :=
        match arg with
        | Opens data error => (data, error, stdin, bad)
        | _ => (stdin, bad, [], bad)
        end in
      let* p := dump_stream (S (length data)) sh data 0 in
      if (error : bool) then Some (fst p, snd p, 3)
      else
        let* q := operands sh args stdin' bad' in
        let '(o, c, s) := q in
        Some (fst p ++ o, snd p ++ c, s)
  end.

(** bin/dump.c:83-118: the standard output, the standard error, the exit status. *)
Definition dumper (sh : Z -> list Z) (tee : bool) (args : list operand) (stdin : list Z) (bad : bool) : option (list Z * list Z * Z) :=
  let* p := operands sh (match args with [] => [Dash] | _ => args end) stdin bad in
  let '(o, c, s) := p in
  Some (if tee then (c, o, s) else (o, [], s)).
