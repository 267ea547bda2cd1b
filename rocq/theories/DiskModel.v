(** What the models of lock files and of observations say of a file system: one directory
    of names, and the octets of the files. This is not code of this project: it is the
    part of POSIX and Linux (rename, renameat2, link, unlink, open, mkstemp, read, write)
    on which that code depends, and part of what is trusted. Names and inodes are
    numbers. Not modelled: several directories, permissions, running out of space other
    than as a failure, and the loss of power. *)

From Coq Require Import ZArith List Bool.
From Verif Require Import CInt CUtil.
Import ListNotations.
Local Open Scope Z_scope.

Record disk := Disk { entry : Z -> option Z; data : Z -> list Z; spare : Z }.
Definition set_entry (d : disk) (n : Z) (i : option Z) : disk := Disk (fun m => if m =? n then i else entry d m) (data d) (spare d).

(** open(2) with O_CREAT and O_EXCL, as in mkstemp(3): a new empty file, unless there is
    one of this name. *)
Definition d_create (d : disk) (n : Z) : option (disk * Z) :=
  match entry d n with
  | Some _ => None
  | None => Some (Disk (fun m => if m =? n then Some (spare d) else entry d m) (fun i => if i =? spare d then [] else data d i) (spare d + 1), spare d)
  end.
(** write(2) at the end of a file that this process created. *)
Definition d_append (d : disk) (i : Z) (l : list Z) : disk := Disk (entry d) (fun j => if j =? i then data d j ++ l else data d j) (spare d).
(** unlink(2) *)
Definition d_unlink (d : disk) (n : Z) : option disk :=
  match entry d n with None => None | Some _ => Some (set_entry d n None) end.
(** rename(2): replaces; does nothing if both names are of the same file. *)
Definition d_rename (d : disk) (a b : Z) : option disk :=
  match entry d a with
  | None => None
  | Some i => match entry d b with
              | Some j => if i =? j then Some d else Some (set_entry (set_entry d b (Some i)) a None)
              | None => Some (set_entry (set_entry d b (Some i)) a None)
              end
  end.
(** renameat2(2) with RENAME_NOREPLACE, and with RENAME_EXCHANGE. *)
Definition d_rename_noreplace (d : disk) (a b : Z) : option disk :=
  match entry d a, entry d b with
  | Some i, None => Some (set_entry (set_entry d b (Some i)) a None)
  | _, _ => None
  end.
Definition d_rename_exchange (d : disk) (a b : Z) : option disk :=
  match entry d a, entry d b with
  | Some i, Some j => Some (set_entry (set_entry d b (Some i)) a (Some j))
  | _, _ => None
  end.
(** link(2) *)
Definition d_link (d : disk) (a b : Z) : option disk :=
  match entry d a, entry d b with
  | Some i, None => Some (set_entry d b (Some i))
  | _, _ => None
  end.
