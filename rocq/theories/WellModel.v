(** Model of diminuto_well.c and diminuto_well.h: a fixed number of objects of one size. *)

From Coq Require Import ZArith List Bool.
From Verif Require Import CInt CUtil MemoryModel ListModel.
Import ListNotations.
Local Open Scope Z_scope.

(** inc/com/diag/diminuto/diminuto_list.h:333-336 diminuto_list_dataset, 344-346
    diminuto_list_datainit. *)
Definition dataset (h : heap) (p : nat) (v : Z) : heap := put h p (Node (next (h p)) (prev (h p)) (root (h p)) v).
Definition datainit (h : heap) (p : nat) (v : Z) : heap := dataset (init h p) p v.

(** inc/com/diag/diminuto/diminuto_well.h:36-40 DiminutoWellIndex. The address of the
    element [i] of the array is the number [1 + i] (elements, not octets). *)
Definition WELL : nat := 1.
Definition FREE (wellp : nat) : nat := wellp.
Definition USED (wellp : nat) : nat := (wellp + 1)%nat.
Definition NODE (wellp : nat) (ii : nat) : nat := (wellp + 2 + ii)%nat.
(** sizeof(diminuto_list_t). *)
Definition node_size : Z := 32.

(** A block of memory: its address and its size. *)
Record block := Block { address : Z; extent : Z }.
(** diminuto_memory_aligned, and the size of the block it asks for. *)
Definition get_block (memalign : memalign_t) (align size : Z) : option block :=
  let '(pointer, _) := aligned memalign align size in
  if pointer =? 0 then None else Some (Block pointer (alignment size (alignment align pointer_size))).
(** Whether an element of the array is in the block. *)
Definition fits (b : block) (i : nat) : option unit := if node_size * (Z.of_nat i + 1) <=? extent b then Some tt else None.

(** src/diminuto_well.c:62-65, the loop: [None] is an access, or a pointer, outside a
    block. *)
Fixpoint fill (fuel : nat) (n ii : nat) (h : heap) (control : block) (data : block) (offset size : Z) : option heap :=
  match n with
  | O => Some h
  | S n =>
    let* _ := fits control (2 + ii) in
    let* _ := if offset + size <=? extent data then Some tt else None in
    let h := datainit h (NODE WELL ii) (address data + offset) in
    let* h := insert fuel h (prev (h (FREE WELL))) (NODE WELL ii) in
    fill fuel n (S ii) h control data (offset + size) size
  end.

(** src/diminuto_well.c:23-72 diminuto_well_init. [page] and [line] are what
    diminuto_memory_pagesize and diminuto_memory_linesize return, [malloc1] and
    [malloc2] the two calls of posix_memalign(3). [Some None] is the return of a null
    pointer. (The block for control is freed if there is none for data.) *)
Definition well_init (page line : Z) (malloc1 malloc2 : memalign_t) (fuel : nat) (h : heap) (size count align pagesize linesize : Z) : option (option heap) :=
  let pagesize := if pagesize =? 0 then page else pagesize in
  match get_block malloc1 pagesize (u64 (node_size * u64 (2 + count))) with
  | None => Some None
  | Some control =>
    let linesize := if linesize =? 0 then line else linesize in
    let align := if align =? 0 then linesize else align in
    let* align := power align in
    let size := alignment size align in
    match get_block malloc2 pagesize (u64 (size * count)) with
    | None => Some None
    | Some data =>
      let* _ := fits control 0 in
      let h := datainit h (FREE WELL) (address control) in
      let* _ := fits control 1 in
      let h := datainit h (USED WELL) (address data) in
      let* h := fill fuel (Z.to_nat count) 0 h control data 0 size in
      Some (Some h)
    end
  end.

(** src/diminuto_well.c:74-78 diminuto_well_fini: the two pointers it frees. *)
Definition well_fini (h : heap) (wellp : nat) : Z * Z := (data (h (USED wellp)), data (h (FREE wellp))).

(** src/diminuto_well.c:80-99 diminuto_well_alloc: the pointer. (The node removed is
    never NULL; errno is not modelled.) *)
Definition well_alloc (fuel : nat) (h : heap) (wellp : nat) : option (heap * Z) :=
  let wellp := root (h wellp) in
  if negb (isempty h (FREE wellp)) then
    let nodep := next (h (FREE wellp)) in
    let* h := remove fuel h nodep in
    let pointer := data (h nodep) in
    let* h := insert fuel h (prev (h (USED wellp))) nodep in
    Some (h, pointer)
  else Some (h, 0).

(** src/diminuto_well.c:101-120 diminuto_well_free. *)
Definition well_free (fuel : nat) (h : heap) (wellp : nat) (pointer : Z) : option (heap * Z) :=
  let wellp := root (h wellp) in
  if negb (isempty h (USED wellp)) then
    let nodep := next (h (USED wellp)) in
    let* h := remove fuel h nodep in
    let h := datainit h nodep pointer in
    let* h := insert fuel h (prev (h (FREE wellp))) nodep in
    Some (h, 0)
  else Some (h, -1).

(** inc/com/diag/diminuto/diminuto_well.h:96-98 diminuto_well_isfull, 105-107
    diminuto_well_isempty. *)
Definition well_isfull (h : heap) (wellp : nat) : bool := isempty h (USED wellp).
Definition well_isempty (h : heap) (wellp : nat) : bool := isempty h (FREE wellp).

(** A sequence of calls. *)
Inductive wop := Alloc | Free (pointer : Z).
Definition well_step (fuel : nat) (h : heap) (o : wop) : option (heap * Z) :=
  match o with Alloc => well_alloc fuel h WELL | Free p => well_free fuel h WELL p end.
Fixpoint well_run (fuel : nat) (h : heap) (ops : list wop) : option (heap * list Z) :=
  match ops with
  | [] => Some (h, [])
  | o :: ops => let* '(h, r) := well_step fuel h o in let* '(h, rs) := well_run fuel h ops in Some (h, r :: rs)
  end.
