(** Model of diminuto_pool.c: objects that are recycled. *)

From Coq Require Import ZArith List Bool Arith.
From Verif Require Import CInt CUtil ListModel WellModel.
Import ListNotations.
Local Open Scope Z_scope.

(** inc/com/diag/diminuto/diminuto_pool.h:41-44 diminuto_pool_object_t: the link is
    first, the payload follows it. In this model the address of the payload is identified
    with that of the link, so that containerof is the identity. The sizes are those of a
    64 bit target. *)
Definition object_size : Z := 32.
Definition payload_unit : Z := 8.

(** src/diminuto_pool.c:18-25 diminuto_pool_init: line 22, and the call. *)
Definition pool_allocation (size : Z) : Z :=
  Z.land (u64 (u64 (u64 (object_size + size) + payload_unit) - 1)) (u64 (Z.lnot (u64 (payload_unit - 1)))).
Definition pool_init (h : heap) (poolp : nat) (size : Z) : heap := datainit h poolp (pool_allocation size).

(** src/diminuto_pool.c:27-35 diminuto_pool_fini: the nodes it frees. *)
Fixpoint fini_loop (fuel n : nat) (h : heap) (poolp : nat) : option (heap * list nat) :=
  match n with
  | O => None
  | S n =>
    if negb (isempty h poolp) then
      let nodep := next (h poolp) in
      let* h := remove fuel h nodep in
      let* '(h, freed) := fini_loop fuel n h poolp in Some (h, nodep :: freed)
    else Some (h, [])
  end.
Definition pool_fini (fuel : nat) (h : heap) (poolp : nat) : option (heap * list nat) := fini_loop fuel fuel h (root (h poolp)).

(** src/diminuto_pool.c:37-56 diminuto_pool_alloc: the object, and the size it asked the
    heap for, if it did. [malloc] is what diminuto_heap_malloc returns if it is called.
    [None] is an access outside of the block it got. (Not modelled: the message.) *)
Definition pool_alloc (fuel : nat) (h : heap) (poolp : nat) (malloc : nat) : option (heap * nat * option Z) :=
  let poolp := root (h poolp) in
  if isempty h poolp then
    let allocation := data (h poolp) in
    let nodep := malloc in
    if (nodep =? NULL)%nat then Some (h, nodep, Some allocation)
    else
      let* _ := if object_size <=? allocation then Some tt else None in
      Some (datainit h nodep (Z.of_nat poolp), nodep, Some allocation)
  else
    let nodep := next (h poolp) in
    let* h := remove fuel h nodep in Some (h, nodep, None).

(** src/diminuto_pool.c:58-66 diminuto_pool_free. *)
Definition pool_free (fuel : nat) (h : heap) (pointer : nat) : option heap :=
  let nodep := pointer in
  let poolp := root (h (Z.to_nat (data (h nodep)))) in
  insert fuel h (prev (h poolp)) nodep.

(** A program: it also has nodes and lists of its own, and may link the objects it has
    into them. *)
Inductive pop := PAlloc (poolp malloc : nat) | PFree (pointer : nat) | PUse (o : op) | PFini (poolp : nat).
Inductive pres := Got (pointer : nat) (asked : option Z) | Returned (x : nat) | Freed (l : list nat) | Done.
Definition pool_step (fuel : nat) (h : heap) (o : pop) : option (heap * pres) :=
  match o with
  | PAlloc p m => let* '(h, x, a) := pool_alloc fuel h p m in Some (h, Got x a)
  | PFree x => let* h := pool_free fuel h x in Some (h, Done)
  | PUse o => let* '(h, x) := step fuel h o in Some (h, Returned x)
  | PFini p => let* '(h, l) := pool_fini fuel h p in Some (h, Freed l)
  end.
Fixpoint pool_run (fuel : nat) (h : heap) (ops : list pop) : option (heap * list pres) :=
  match ops with
  | [] => Some (h, [])
  | o :: ops => let* '(h, r) := pool_step fuel h o in let* '(h, rs) := pool_run fuel h ops in Some (h, r :: rs)
  end.
(** Pools and nodes of the program, initialised. *)
Definition pools_init (h : heap) (pools : list (nat * Z)) (nodes : list nat) : heap :=
  fold_left (fun h '(p, size) => pool_init h p size) pools (init_all h nodes).
