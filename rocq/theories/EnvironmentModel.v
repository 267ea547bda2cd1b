(** Model of diminuto_environment.c: threads that use the environment at the same time, on
    top of the model of the lock. The functions of the C library are no code of this
    project: what they do to the environment if nothing else happens to it, and what they
    return (a pointer, or a status), is given by [getenv_] and [modify]. They may take any
    time, and if one that modifies the environment is at work while another one of them is,
    the behaviour is undefined: [None]. Not modelled: errno; cancelling of threads
    (C21_cancel_refuted); sections of the application that use the macros
    DIMINUTO_ENVIRONMENT_READER_BEGIN and so on. *)

From Coq Require Import ZArith List Bool.
From Verif Require Import CInt CUtil ReaderwriterModel.
Import ListNotations.
Local Open Scope Z_scope.

(** src/diminuto_environment.c:18-60, the four functions; strings are their octets. *)
Inductive op :=
  | Get (name : list Z)
  | Put (string : list Z)
  | Set_ (name value : list Z) (overwrite : bool)
  | Unset (name : list Z).

(** inc/com/diag/diminuto/diminuto_environment.h:30-52: the section each has, and what is in
    result at first, which is what is returned if the lock cannot be had. *)
Definition role_of (o : op) : role := match o with Get _ => READER | _ => WRITER end.
Definition failure (o : op) : Z := match o with Get _ => 0 | _ => -1 end.

(** Where a thread is: in none of the functions; waiting for the lock; in the section, before
    the function of the C library; in that; after it. *)
Inductive pc := Idle | Waiting (o : op) | Holds (o : op) | Inside (o : op) | Leaving (o : op) (result : Z).

(** What can be seen: a function is called, the C library has done its work, the function
    returns. *)
Inductive note := Called (t : Z) (o : op) | Effect (t : Z) (o : op) (result : Z) | Returned (t : Z) (o : op) (result : Z).

Record sys (E : Type) := Sys { lock : rw; env : E; thread : Z -> pc; inside : list (Z * bool) }.
Arguments Sys {E}. Arguments lock {E}. Arguments env {E}. Arguments thread {E}. Arguments inside {E}.

Definition at_pc (f : Z -> pc) (t : Z) (p : pc) : Z -> pc := fun u => if u =? t then p else f u.

(** The functions of the C library that change the environment; one of them must not be at
    work at the same time as another one or getenv(3). *)
Definition modifies (o : op) : bool := match o with Get _ => false | Put _ | Set_ _ _ _ | Unset _ => true end.
Definition conflicts (m : bool) (x : Z * bool) : bool := m || snd x.

(** The value diminuto_reader_begin() or diminuto_writer_begin() returns, if it does. *)
Fixpoint begun_value (es : list event) : option Z :=
  match es with
  | [] => None
  | Begun _ _ v :: _ => Some v
  | _ :: es => begun_value es
  end.

(** The steps of a thread. *)
Inductive move :=
  | Call (t : Z) (o : op) (node : bool)
  | Resume (t rc : Z)
  | Enter (t : Z)
  | Exit (t : Z)
  | Return (t : Z).

Section library.
  Context {E : Type}.
  Variables (getenv_ : list Z -> E -> Z) (modify : op -> E -> E * Z).

  (** What the C library does. *)
  Definition library (o : op) (e : E) : E * Z := match o with Get n => (e, getenv_ n e) | _ => modify o e end.

  (** inc/com/diag/diminuto/diminuto_readerwriter.h:342 and 373: the section is entered if
      begin returns zero, otherwise the function returns what it has. *)
  Definition after_begin (s : sys E) (lk : rw) (t : Z) (o : op) (es : list event) : sys E * list note :=
    match begun_value es with
    | None => (Sys lk (env s) (at_pc (thread s) t (Waiting o)) (inside s), [])
    | Some v =>
        if v =? 0 then (Sys lk (env s) (at_pc (thread s) t (Holds o)) (inside s), [])
        else (Sys lk (env s) (at_pc (thread s) t Idle) (inside s), [Returned t o (failure o)])
    end.

  (** src/diminuto_environment.c:18-27 diminuto_environment_get, 29-38
      diminuto_environment_put, 40-49 diminuto_environment_set, 51-60
      diminuto_environment_unset. *)
  Definition estep (s : sys E) (m : move) : option (sys E * list event * list note) :=
    match m with
    | Call t o node =>
        let* p := step (lock s) (Begin t (role_of o) INFINITY false node) in
        let '(lk, es) := p in
        let '(s, n) := after_begin s lk t o es in
        Some (s, es, Called t o :: n)
    | Resume t rc =>
        match thread s t with
        | Waiting o =>
            let* p := step (lock s) (Wake t rc) in
            let '(lk, es) := p in
            let '(s, n) := after_begin s lk t o es in
            Some (s, es, n)
        | _ => None
        end
    | Enter t =>
        match thread s t with
        | Holds o =>
            if existsb (conflicts (modifies o)) (inside s) then None
            else Some (Sys (lock s) (env s) (at_pc (thread s) t (Inside o)) ((t, modifies o) :: inside s), [], [])
        | _ => None
        end
    | Exit t =>
        match thread s t with
        | Inside o =>
            let '(e, result) := library o (env s) in
            Some (Sys (lock s) e (at_pc (thread s) t (Leaving o result)) (filter (fun x => negb (fst x =? t)) (inside s)),
                  [], [Effect t o result])
        | _ => None
        end
    | Return t =>
        match thread s t with
        | Leaving o result =>
            let* p := step (lock s) (End t (role_of o)) in
            let '(lk, es) := p in
            Some (Sys lk (env s) (at_pc (thread s) t Idle) (inside s), es, [Returned t o result])
        | _ => None
        end
    end.
End library.
