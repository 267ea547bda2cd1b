(** Model of diminuto_module.c: loadable modules and their reference counts. dlopen(3) and
    dlclose(3) are as their manual and POSIX have them: dlopen needs one of RTLD_LAZY and
    RTLD_NOW, with RTLD_NOLOAD answers only if the module is there, and adds a reference
    whenever it answers; dlclose fails for a module that is not there, and does nothing, but
    succeeds, for one that is never removed (RTLD_NODELETE, or -z nodelete). Simplifications:
    a module has one file; what its constructors and destructors do; the log; platforms other
    than Linux with glibc. *)

From Coq Require Import ZArith List Bool.
From Verif Require Import CUtil.
Import ListNotations.
Local Open Scope Z_scope.

Definition RTLD_LAZY : Z := 1.
Definition RTLD_NOW : Z := 2.
Definition RTLD_NOLOAD : Z := 4.
Definition RTLD_DEEPBIND : Z := 8.
Definition RTLD_GLOBAL : Z := 256.

(** What there is to be loaded: the handle of the module in a file, if there is one; whether
    the module is never removed; and its symbols. Handles are not zero, which is NULL. *)
Record world := World { module_in : Z -> option Z; permanent : Z -> bool; symbol_of : Z -> Z -> option Z -> option Z }.
(** The references to each module; it is there if there are any. *)
Definition refs := Z -> nat.
Definition setref (r : refs) (m : Z) (n : nat) : refs := fun x => if x =? m then n else r x.

Definition dlopen (w : world) (r : refs) (filename flags : Z) : Z * refs :=
  if Z.land flags (Z.lor RTLD_LAZY RTLD_NOW) =? 0 then (0, r)
  else match module_in w filename with
  | None => (0, r)
  | Some m =>
      if negb (Z.land flags RTLD_NOLOAD =? 0) && Nat.eqb (r m) 0 then (0, r) else (m, setref r m (S (r m)))
  end.
Definition dlclose (w : world) (r : refs) (m : Z) : Z * refs :=
  match r m with
  | O => (-1, r)
  | S n => if permanent w m then (0, r) else (0, setref r m n)
  end.

(** src/diminuto_module.c:23-38 diminuto_module_load_generic. *)
Definition load_generic (w : world) (r : refs) (filename flags : Z) : Z * refs := dlopen w r filename flags.
(** src/diminuto_module.c:40-48 diminuto_module_handle. *)
Definition handle (w : world) (r : refs) (filename : Z) : Z * refs := load_generic w r filename RTLD_NOLOAD.
(** src/diminuto_module.c:50-58 diminuto_module_load. *)
Definition load (w : world) (r : refs) (filename : Z) : Z * refs :=
  load_generic w r filename (Z.lor (Z.lor RTLD_LAZY RTLD_GLOBAL) RTLD_DEEPBIND).
(** src/diminuto_module.c:60-99 diminuto_module_symbol; 0 is NULL. *)
Definition symbol (w : world) (r : refs) (m name : Z) (version : option Z) : Z :=
  match r m with O => 0 | _ => match symbol_of w m name version with Some x => x | None => 0 end end.
(** src/diminuto_module.c:124-126: the loop of diminuto_module_unload, and how often dlclose
    was called; [None] if it has not ended. *)
Fixpoint closing (fuel : nat) (w : world) (r : refs) (m : Z) (force : bool) : option (Z * refs * nat) :=
  match fuel with
  | O => None
  | S fuel =>
      let '(rc, r) := dlclose w r m in
      if force && (rc =? 0) then match closing fuel w r m force with Some (rc, r, n) => Some (rc, r, S n) | None => None end else Some (rc, r, 1%nat)
  end.
(** src/diminuto_module.c:102-137 diminuto_module_unload. *)
Definition unload (fuel : nat) (w : world) (r : refs) (m : Z) (force : bool) : option (Z * refs * nat) :=
  match closing fuel w r m force with
  | Some (rc, r, n) => Some (if force then 0 else if rc =? 0 then 0 else m, r, n)
  | None => None
  end.

(** A history: files loaded and modules unloaded, not by force; and what each call returned. *)
Inductive op := Load (filename : Z) | Unload (m : Z).
Fixpoint history (w : world) (r : refs) (ops : list op) : refs * list Z :=
  match ops with
  | [] => (r, [])
  | Load f :: ops => let '(x, r) := load w r f in let '(r, l) := history w r ops in (r, x :: l)
  | Unload m :: ops =>
      match unload 1 w r m false with
      | Some (x, r, _) => let '(r, l) := history w r ops in (r, x :: l)
      | None => (r, [])
      end
  end.
