(** Model of diminuto_scattergather.c and of the inline functions of
    diminuto_scattergather.h: records of segments, allocated from a pool of list nodes,
    that are read and written in one system call.

    Every operation that touches the pool does so under a mutex, and what else an operation
    does is to nodes its caller owns, so a history of operations is a sequence of them. *)

From Coq Require Import ZArith List Bool Arith.
From Verif Require Import CUtil CInt ListModel.
Import ListNotations.
Local Open Scope nat_scope.

(** inc/com/diag/diminuto/diminuto_scattergather.h:133-158 diminuto_scattergather_buffer_t:
    a length and then a payload field, to the end of the allocated block. The structure
    takes eight octets without the payload. *)
Record buffer := Buffer { len : Z; payload : list Z }.
Definition SIZEOF_BUFFER : Z := 8.
(** The nodes (pool, records and segments are list nodes: diminuto_scattergather.h:171-185)
    and the buffers that are allocated; a pointer to a buffer is a number, NULL is zero.
    A simplification: the address of a buffer that was freed is not used again. *)
Record state := State { nodes : heap; buffers : Z -> option buffer; fresh : Z }.
Definition set_nodes (s : state) (h : heap) : state := State h (buffers s) (fresh s).
Definition set_buffer (s : state) (b : Z) (v : option buffer) : state :=
  State (nodes s) (fun c => if Z.eqb c b then v else buffers s c) (fresh s).

(** inc/com/diag/diminuto/diminuto_list.h:333-336 diminuto_list_dataset, 344-346
    diminuto_list_datainit, 353-355 diminuto_list_nullinit. *)
Definition dataset (h : heap) (p : nat) (d : Z) : heap := put h p (Node (next (h p)) (prev (h p)) (root (h p)) d).
Definition nullinit (h : heap) (p : nat) : heap := dataset (init h p) p 0%Z.

(** src/diminuto_scattergather.c:47-56 diminuto_scattergather_pool_get. *)
Definition pool_get (fuel : nat) (s : state) (pp : nat) : option (state * nat) :=
  let* '(h, np) := dequeue fuel (nodes s) pp in Some (set_nodes s h, np).
(** src/diminuto_scattergather.c:58-63 diminuto_scattergather_pool_put. *)
Definition pool_put (fuel : nat) (s : state) (pp np : nat) : option state :=
  let* h := enqueue fuel (nullinit (nodes s) np) pp np in Some (set_nodes s h).
(** src/diminuto_scattergather.c:65-76 diminuto_scattergather_pool_populate. *)
Fixpoint pool_populate (fuel : nat) (h : heap) (pp : nat) (sa : list nat) : option heap :=
  match sa with
  | [] => Some h
  | np :: sa => let* h := enqueue fuel (nullinit h np) pp np in pool_populate fuel h pp sa
  end.
(** src/diminuto_scattergather.c:38-45 diminuto_scattergather_pool_fini. The loop ends when
    the pool is empty; [turns] bounds its iterations. *)
Fixpoint pool_fini (fuel turns : nat) (h : heap) (pp : nat) : option heap :=
  match turns with
  | O => None
  | S turns =>
      let np := head h pp in
      if np =? NULL then Some h else let* h := remove fuel h np in pool_fini fuel turns h pp
  end.
(** A pool initialised (diminuto_scattergather.h:225-227 diminuto_scattergather_pool_init)
    and populated with nodes, and no buffer allocated. *)
Definition start (fuel : nat) (h : heap) (pp : nat) (sa : list nat) : option state :=
  let* h := pool_populate fuel (nullinit h pp) pp sa in Some (State h (fun _ => None) 1).

(** src/diminuto_buffer.c:91-106 diminuto_buffer_free: of NULL it does nothing; of a buffer
    that is not allocated it is undefined. *)
Definition buffer_free (s : state) (b : Z) : option state :=
  if Z.eqb b 0 then Some s else match buffers s b with None => None | Some _ => Some (set_buffer s b None) end.
(** inc/com/diag/diminuto/diminuto_scattergather.h:293-318 the payload and the length of the
    buffer of a segment. Undefined without a buffer. *)
Definition buffer_of (s : state) (sp : nat) : option (Z * buffer) :=
  let b := data (nodes s sp) in if Z.eqb b 0 then None else let* v := buffers s b in Some (b, v).
Definition length_get (s : state) (sp : nat) : option Z := let* '(_, v) := buffer_of s sp in Some (len v).
Definition length_set (s : state) (sp : nat) (ll : Z) : option state :=
  let* '(b, v) := buffer_of s sp in Some (set_buffer s b (Some (Buffer ll (payload v)))).
(** What a caller does with the payload: stores octets at its beginning, or takes as many
    as the length says. Beyond the block it is undefined. *)
Definition store (s : state) (sp : nat) (bs : list Z) : option state :=
  let* '(b, v) := buffer_of s sp in
  if length bs <=? length (payload v) then Some (set_buffer s b (Some (Buffer (len v) (bs ++ skipn (length bs) (payload v))))) else None.
Definition load (s : state) (sp : nat) : option (list Z) :=
  let* '(_, v) := buffer_of s sp in
  if Z.leb (len v) (Z.of_nat (length (payload v))) then Some (firstn (Z.to_nat (len v)) (payload v)) else None.

(** src/diminuto_scattergather.c:82-109 diminuto_scattergather_segment_allocate. [block] is
    what diminuto_buffer_malloc returns: NULL, or memory that holds [block] (after the first
    eight octets) as far as the size asked for goes. Setting the length in a block too small
    for it is undefined. *)
Definition segment_allocate (fuel : nat) (s : state) (pp : nat) (size : Z) (block : option (list Z)) : option (state * nat) :=
  match block with
  | None => Some (s, NULL)
  | Some memory =>
      let asked := u64 (SIZEOF_BUFFER + size) in
      let b := fresh s in
      let s := State (nodes s) (fun c => if Z.eqb c b then Some (Buffer 0 (firstn (Z.to_nat (asked - SIZEOF_BUFFER)) memory)) else buffers s c) (b + 1) in
      let* '(s, sp) := pool_get fuel s pp in
      if sp =? NULL then let* s := buffer_free s b in Some (s, NULL)
      else if Z.ltb asked SIZEOF_BUFFER then None
      else
        let* v := buffers s b in
        let s := set_buffer s b (Some (Buffer size (payload v))) in
        Some (set_nodes s (dataset (nodes s) sp b), sp)
  end.

(** inc/com/diag/diminuto/diminuto_scattergather.h:282-284 diminuto_scattergather_segment_fini
    (and 363-365 diminuto_scattergather_record_fini). *)
Definition segment_fini (fuel : nat) (s : state) (sp : nat) : option state :=
  let* h := remove fuel (nodes s) sp in Some (set_nodes s (dataset h sp 0%Z)).
(** inc/com/diag/diminuto/diminuto_scattergather.h:338-342 diminuto_scattergather_segment_free. *)
Definition segment_free (fuel : nat) (s : state) (pp sp : nat) : option state :=
  let* s := buffer_free s (data (nodes s sp)) in
  let* s := segment_fini fuel s sp in
  pool_put fuel s pp sp.
(** inc/com/diag/diminuto/diminuto_scattergather.h:439-441
    diminuto_scattergather_record_segment_remove, 528-531
    diminuto_scattergather_record_segment_free. *)
Definition segment_remove (fuel : nat) (s : state) (sp : nat) : option state :=
  let* h := remove fuel (nodes s) sp in Some (set_nodes s h).
Definition record_segment_free (fuel : nat) (s : state) (pp sp : nat) : option state :=
  let* s := segment_remove fuel s sp in segment_free fuel s pp sp.
(** src/diminuto_scattergather.c:192-201 diminuto_scattergather_record_segments_free. The
    loop ends when the record is empty; [turns] bounds its iterations. *)
Fixpoint segments_free (fuel turns : nat) (s : state) (pp rp : nat) : option state :=
  match turns with
  | O => None
  | S turns =>
      let sp := head (nodes s) rp in
      if sp =? NULL then Some s else let* s := record_segment_free fuel s pp sp in segments_free fuel turns s pp rp
  end.
(** src/diminuto_scattergather.c:203-213 diminuto_scattergather_record_allocate. *)
Definition record_allocate (fuel : nat) (s : state) (pp : nat) : option (state * nat) := pool_get fuel s pp.
(** inc/com/diag/diminuto/diminuto_scattergather.h:391-393 diminuto_scattergather_record_free. *)
Definition record_free (fuel : nat) (s : state) (pp rp : nat) : option state :=
  let* s := segments_free fuel fuel s pp rp in
  let* s := segment_fini fuel s rp in
  pool_put fuel s pp rp.

(** inc/com/diag/diminuto/diminuto_scattergather.h:449-451 ..._record_segment_prepend,
    459-461 ..._append, 471-473 ..._insert, 481-483 ..._replace. *)
Definition prepend (fuel : nat) (s : state) (rp sp : nat) : option state := let* h := push fuel (nodes s) rp sp in Some (set_nodes s h).
Definition append (fuel : nat) (s : state) (rp sp : nat) : option state := let* h := enqueue fuel (nodes s) rp sp in Some (set_nodes s h).
Definition insert_after (fuel : nat) (s : state) (op sp : nat) : option state := let* h := splice fuel (nodes s) op sp in Some (set_nodes s h).
Definition replace_with (fuel : nat) (s : state) (op sp : nat) : option state := let* h := replace fuel (nodes s) op sp in Some (set_nodes s h).
(** inc/com/diag/diminuto/diminuto_scattergather.h:508-510 ..._record_segment_next, 518-520
    ..._previous (head and tail, 490-501, are those of the list). *)
Definition segment_next (h : heap) (sp : nat) : nat := if next (h sp) =? root (h sp) then NULL else next (h sp).
Definition segment_previous (h : heap) (sp : nat) : nat := if prev (h sp) =? root (h sp) then NULL else prev (h sp).

(** The segments that the loops of diminuto_scattergather_record_enumerate, _measure and
    _vectorize (src/diminuto_scattergather.c:120, 132, 172) go through. None if there are
    [fuel] or more. *)
Fixpoint walk (fuel : nat) (h : heap) (sp : nat) : option (list nat) :=
  match fuel with
  | O => None
  | S fuel => if sp =? NULL then Some [] else let* l := walk fuel h (segment_next h sp) in Some (sp :: l)
  end.
Definition segments (fuel : nat) (h : heap) (rp : nat) : option (list nat) := walk fuel h (head h rp).
(** src/diminuto_scattergather.c:115-125 diminuto_scattergather_record_enumerate. *)
Definition enumerate (fuel : nat) (s : state) (rp : nat) : option Z :=
  let* l := segments fuel (nodes s) rp in Some (fold_left (fun nn _ => u64 (nn + 1)) l 0%Z).
(** src/diminuto_scattergather.c:127-139 diminuto_scattergather_record_measure. *)
Fixpoint measure_loop (s : state) (ll : Z) (l : list nat) : option Z :=
  match l with
  | [] => Some ll
  | sp :: l => if Z.eqb (data (nodes s sp)) 0 then measure_loop s ll l else let* n := length_get s sp in measure_loop s (u64 (ll + n)) l
  end.
Definition measure (fuel : nat) (s : state) (rp : nat) : option Z := let* l := segments fuel (nodes s) rp in measure_loop s 0 l.
(** src/diminuto_scattergather.c:167-190 diminuto_scattergather_record_vectorize. An entry
    of the vector is the payload of which buffer, and a length. The inner None is NULL. *)
Fixpoint vectorize_loop (s : state) (ii nn : Z) (l : list nat) : option (option (list (Z * Z))) :=
  match l with
  | [] => Some (Some [])
  | sp :: l =>
      if Z.ltb ii nn then
        let* '(b, v) := buffer_of s sp in
        let* r := vectorize_loop s (ii + 1) nn l in
        Some (option_map (cons (b, len v)) r)
      else Some None
  end.
Definition vectorize (fuel : nat) (s : state) (rp : nat) (nn : Z) : option (option (list (Z * Z))) :=
  let* l := segments fuel (nodes s) rp in vectorize_loop s 0 nn l.

(** What the kernel finds when it gathers from a vector, and does when it scatters into it.
    Touching octets beyond a block is undefined. *)
Definition area (s : state) (e : Z * Z) : option (list Z) :=
  let* v := buffers s (fst e) in if Z.leb (snd e) (Z.of_nat (length (payload v))) then Some (firstn (Z.to_nat (snd e)) (payload v)) else None.
Fixpoint gather (s : state) (v : list (Z * Z)) : option (list (list Z)) :=
  match v with [] => Some [] | e :: v => let* a := area s e in let* r := gather s v in Some (a :: r) end.
Fixpoint scatter (s : state) (v : list (Z * Z)) (bs : list Z) : option state :=
  match v with
  | [] => Some s
  | (b, n) :: v =>
      let* u := buffers s b in
      let k := min (Z.to_nat n) (length bs) in
      if k <=? length (payload u) then
        scatter (set_buffer s b (Some (Buffer (len u) (firstn k bs ++ skipn k (payload u))))) v (skipn k bs)
      else None
  end.

(** inc/com/diag/diminuto/diminuto_scattergather.h:120-122. *)
Definition MAXIMUM : Z := 1024.
(** src/diminuto_scattergather.c:219-241 diminuto_scattergather_record_write. [n] is what
    writev returns; the result is also the octets written. Alloca does not fail. *)
Definition record_write (fuel : nat) (s : state) (rp : nat) (n : Z) : option (Z * list Z) :=
  let* nn := enumerate fuel s rp in
  if negb (Z.ltb 0 nn && Z.leb nn MAXIMUM) then Some ((-1)%Z, [])
  else
    let* v := vectorize fuel s rp nn in
    match v with
    | None => Some ((-1)%Z, [])
    | Some v => let* a := gather s v in Some (n, firstn (Z.to_nat n) (concat a))
    end.
(** src/diminuto_scattergather.c:243-265 diminuto_scattergather_record_read. [input] is what
    readv has to give, or None for an error. *)
Definition record_read (fuel : nat) (s : state) (rp : nat) (input : option (list Z)) : option (state * Z) :=
  let* nn := enumerate fuel s rp in
  if negb (Z.ltb 0 nn && Z.leb nn MAXIMUM) then Some (s, (-1)%Z)
  else
    let* v := vectorize fuel s rp nn in
    match v with
    | None => Some (s, (-1)%Z)
    | Some v => match input with None => Some (s, (-1)%Z) | Some bs => let* s := scatter s v bs in Some (s, Z.of_nat (length bs)) end
    end.
(** src/diminuto_scattergather.c:267-291 diminuto_scattergather_record_send_generic: the
    same with sendmsg, but for the value of total (line 269) if nothing is sent. The
    addresses are not modelled. *)
Definition record_send (fuel : nat) (s : state) (rp : nat) (n : Z) : option (Z * list Z) :=
  let* nn := enumerate fuel s rp in
  if negb (Z.ltb 0 nn && Z.leb nn MAXIMUM) then Some (0%Z, [])
  else
    let* v := vectorize fuel s rp nn in
    match v with
    | None => Some (0%Z, [])
    | Some v => let* a := gather s v in Some (n, firstn (Z.to_nat n) (concat a))
    end.
(** src/diminuto_scattergather.c:333-357 diminuto_scattergather_record_receive_generic. *)
Definition record_receive (fuel : nat) (s : state) (rp : nat) (input : option (list Z)) : option (state * Z) :=
  let* nn := enumerate fuel s rp in
  if negb (Z.ltb 0 nn && Z.leb nn MAXIMUM) then Some (s, 0%Z)
  else
    let* v := vectorize fuel s rp nn in
    match v with
    | None => Some (s, 0%Z)
    | Some v => match input with None => Some (s, (-1)%Z) | Some bs => let* s := scatter s v bs in Some (s, Z.of_nat (length bs)) end
    end.

(** The operations as a client calls them, with what the allocator and the kernel do, and
    what a client sees of each. *)
Inductive call :=
  | SegmentAllocate (size : Z) (block : option (list Z)) | SegmentFree (sp : nat) | RecordSegmentFree (sp : nat)
  | RecordAllocate | RecordSegmentsFree (rp : nat) | RecordFree (rp : nat)
  | Prepend (rp sp : nat) | Append (rp sp : nat) | InsertAfter (op sp : nat) | ReplaceWith (op sp : nat) | SegmentRemove (sp : nat)
  | LengthGet (sp : nat) | LengthSet (sp : nat) (ll : Z) | Store (sp : nat) (bs : list Z) | Load (sp : nat)
  | Head (rp : nat) | Tail (rp : nat) | Next (sp : nat) | Previous (sp : nat)
  | Enumerate (rp : nat) | Measure (rp : nat) | Vectorize (rp : nat) (nn : Z)
  | Write (rp : nat) (n : Z) | Read (rp : nat) (input : option (list Z))
  | Send (rp : nat) (n : Z) | Receive (rp : nat) (input : option (list Z)).
Inductive result := Nothing | Pointer (p : nat) | Number (n : Z) | Octets (bs : list Z) | Vector (v : option (list (list Z))) | Written (n : Z) (bs : list Z).
Definition perform (fuel : nat) (pp : nat) (s : state) (c : call) : option (state * result) :=
  let quiet o := let* s := o in Some (s, Nothing) in
  let node (o : option (state * nat)) := let* '(s, p) := o in Some (s, Pointer p) in
  let number o := let* n := o in Some (s, Number n) in
  match c with
  | SegmentAllocate size block => node (segment_allocate fuel s pp size block)
  | SegmentFree sp => quiet (segment_free fuel s pp sp)
  | RecordSegmentFree sp => quiet (record_segment_free fuel s pp sp)
  | RecordAllocate => node (record_allocate fuel s pp)
  | RecordSegmentsFree rp => quiet (segments_free fuel fuel s pp rp)
  | RecordFree rp => quiet (record_free fuel s pp rp)
  | Prepend rp sp => quiet (prepend fuel s rp sp)
  | Append rp sp => quiet (append fuel s rp sp)
  | InsertAfter op sp => quiet (insert_after fuel s op sp)
  | ReplaceWith op sp => quiet (replace_with fuel s op sp)
  | SegmentRemove sp => quiet (segment_remove fuel s sp)
  | LengthGet sp => number (length_get s sp)
  | LengthSet sp ll => quiet (length_set s sp ll)
  | Store sp bs => quiet (store s sp bs)
  | Load sp => let* bs := load s sp in Some (s, Octets bs)
  | Head rp => Some (s, Pointer (head (nodes s) rp))
  | Tail rp => Some (s, Pointer (tail (nodes s) rp))
  | Next sp => Some (s, Pointer (segment_next (nodes s) sp))
  | Previous sp => Some (s, Pointer (segment_previous (nodes s) sp))
  | Enumerate rp => number (enumerate fuel s rp)
  | Measure rp => number (measure fuel s rp)
  | Vectorize rp nn =>
      let* v := vectorize fuel s rp nn in
      match v with None => Some (s, Vector None) | Some v => let* a := gather s v in Some (s, Vector (Some a)) end
  | Write rp n => let* '(n, bs) := record_write fuel s rp n in Some (s, Written n bs)
  | Read rp input => let* '(s, n) := record_read fuel s rp input in Some (s, Number n)
  | Send rp n => let* '(n, bs) := record_send fuel s rp n in Some (s, Written n bs)
  | Receive rp input => let* '(s, n) := record_receive fuel s rp input in Some (s, Number n)
  end.
Fixpoint perform_all (fuel : nat) (pp : nat) (s : state) (cs : list call) : option (state * list result) :=
  match cs with
  | [] => Some (s, [])
  | c :: cs => let* '(s, r) := perform fuel pp s c in let* '(s, rs) := perform_all fuel pp s cs in Some (s, r :: rs)
  end.

(** The results of calls on a pool of the nodes [sa], with [9] for the pool; [None] is
    undefined behaviour. *)
Definition outcome (sa : list nat) (cs : list call) : option (list result) :=
  let* s := start 20 (fun _ => Node 0 0 0 0) 9 sa in option_map snd (perform_all 20 9 s cs).
