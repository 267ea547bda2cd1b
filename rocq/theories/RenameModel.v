(** The utility that renames a file without replacing another, or exchanges two files:
    bin/renametool.c. Names are numbers, as in DiskModel; one of them is the name -x. *)

From Coq Require Import ZArith List Bool.
From Verif Require Import CInt CUtil DiskModel.
Import ListNotations.
Local Open Scope Z_scope.

(** The argument "-x", bin/renametool.c:50. *)
Definition DASH_X : Z := -1.

(** renameat2(2), src/diminuto_renameat2.h and the kernel, as called in
    bin/renametool.c:65: it may be refused for other reasons than the names, such as
    permissions, different file systems, or because it is not supported (the stub in
    src/diminuto_renameat2.c); otherwise it is the operation of DiskModel, at once. *)
Definition renameat2 (refused : bool) (d : disk) (fromfile tofile : Z) (exchange : bool) : option disk :=
  if refused then None
  else if exchange then d_rename_exchange d fromfile tofile else d_rename_noreplace d fromfile tofile.

(** bin/renametool.c:30-75 main: [argv] are the arguments after the name of the program
    (which is taken to be there); the exit code and the disk. Simplified: messages. *)
Definition renametool (refused : bool) (d : disk) (argv : list Z) : Z * disk :=
  if (Z.of_nat (length argv) + 1 <? 3) then (2, d)
  else
    let exchange := match argv with a :: _ => a =? DASH_X | [] => false end in
    let ndx := if exchange then 2 else 1 in
    if negb (Z.of_nat (length argv) + 1 =? ndx + 2) then (2, d)
    else
      let fromfile := nth (Z.to_nat (ndx - 1)) argv 0 in
      let tofile := nth (Z.to_nat ndx) argv 0 in
      match renameat2 refused d fromfile tofile exchange with
      | None => (1, d)
      | Some d => (0, d)
      end.

(** Any number of runs, by any number of users: each makes at most one system call, so
    runs at the same time are runs in some order. *)
Fixpoint runs (d : disk) (l : list (bool * list Z)) : disk * list Z :=
  match l with
  | [] => (d, [])
  | (refused, argv) :: l =>
      let '(xc, d) := renametool refused d argv in
      let '(d, xcs) := runs d l in (d, xc :: xcs)
  end.
