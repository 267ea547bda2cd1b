(** Model of diminuto_i2c.c: threads that use a bus by way of one descriptor. Each call of
    diminuto_i2c_get() and its siblings is a critical section; threads take steps in any
    order. The system answers arbitrarily. *)

From Coq Require Import ZArith List Bool.
From Verif Require Import CInt CUtil OptionModel.
Import ListNotations.
Local Open Scope Z_scope.

(** * Opening *)

(** The name of the bus, src/diminuto_i2c.c:37-50: the buffer has as many octets as the
    format and a NUL, twelve. *)
Definition bus_name (bus : Z) : list Z :=
  firstn 11 ([47; 100; 101; 118; 47; 105; 50; 99; 45] ++ utoa 10 bus []).

(** * Transactions *)

Inductive action := Use (addr : Z) | Write (data : list Z) | Read (size : Z).

Inductive request :=
  | Get (addr reg size : Z)
  | Set_ (addr reg : Z) (data : list Z)
  | Send (addr : Z) (data : list Z)
  | GetSet (addr reg size : Z) (data : list Z)
  | SetGet (addr reg : Z) (data : list Z) (size : Z).

(** What happens in the critical sections, lines 120-219, as long as nothing fails. In
    diminuto_i2c_get_set() and diminuto_i2c_set_get() both sizes are the same. *)
Definition program (r : request) : list action :=
  match r with
  | Get a r n => [Use a; Write [r]; Read n]
  | Set_ a r d => [Use a; Write [r]; Write d]
  | Send a d => [Use a; Write d]
  | GetSet a r n d => [Use a; Write [r]; Read n; Write d]
  | SetGet a r d n => [Use a; Write [r]; Write d; Read n]
  end.

(** diminuto_i2c_use(), lines 52-61, diminuto_i2c_read(), lines 63-82, and
    diminuto_i2c_write(), lines 84-103: the result, given what the system answers. *)
Definition result (a : action) (rc : Z) : Z :=
  match a with
  | Use _ => rc
  | Write d => if rc <? 0 then rc else if Z.of_nat (length d) <? rc then -1 else if rc =? 0 then -1 else rc
  | Read n => if rc <? 0 then rc else if n <? rc then -1 else if rc =? 0 then -1 else rc
  end.

(** * Threads *)

(** Outside the critical section, with the calls still to be made; or in it, with the
    call, what is still to be done for it, and rc. *)
Inductive thread :=
  | Outside (calls : list request)
  | Inside (call : request) (rest : list action) (rc : Z) (calls : list request).

(** Who holds the mutex; the threads; what happened on the bus, the latest last; and what
    the calls returned. *)
Record system := mksystem {
  holder : option nat;
  threads : list thread;
  bus : list (nat * action * Z);
  returns : list (nat * request * Z)
}.

Fixpoint replace (i : nat) (t : thread) (l : list thread) : list thread :=
  match i, l with
  | _, [] => []
  | O, _ :: l => t :: l
  | S i, u :: l => u :: replace i t l
  end.

(** One step of a thread; [rc] is what the system answers if it is asked. A thread that
    waits for the mutex, or has nothing to do, does nothing. A system call that fails
    returns -1; so that is what is returned whatever fails. *)
Definition step (s : system) (i : nat) (rc : Z) : system :=
  match nth_error (threads s) i with
  | None => s
  | Some (Outside []) => s
  | Some (Outside (c :: calls)) =>
      match holder s with
      | Some _ => s
      | None => mksystem (Some i) (replace i (Inside c (program c) (-1) calls) (threads s)) (bus s) (returns s)
      end
  | Some (Inside c [] r calls) =>
      mksystem None (replace i (Outside calls) (threads s)) (bus s) (returns s ++ [(i, c, s32 r)])
  | Some (Inside c (a :: rest) _ calls) =>
      let r := result a rc in
      mksystem (holder s)
               (replace i (if r <? 0 then Inside c [] (-1) calls else Inside c rest r calls) (threads s))
               (bus s ++ [(i, a, r)]) (returns s)
  end.
Fixpoint run (s : system) (schedule : list (nat * Z)) : system :=
  match schedule with
  | [] => s
  | (i, rc) :: schedule => run (step s i rc) schedule
  end.
Definition start (calls : list (list request)) : system := mksystem None (map Outside calls) [] [].
