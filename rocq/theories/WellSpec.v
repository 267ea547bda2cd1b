(** Specification for wells. *)

From Coq Require Import ZArith List Bool.
From Verif Require Import WellModel.
Import ListNotations.
Local Open Scope Z_scope.

(** The objects in the well, first that which is handed out next, and those that are
    out. An application only returns what is out. *)
Fixpoint take (p : Z) (l : list Z) : option (list Z) :=
  match l with [] => None | x :: l' => if x =? p then Some l' else option_map (cons x) (take p l') end.
Definition r_step (s : list Z * list Z) (o : wop) : option (list Z * list Z * Z) :=
  match o with
  | Alloc => match fst s with [] => Some (s, 0) | x :: inside => Some (inside, x :: snd s, x) end
  | Free p => match take p (snd s) with Some out => Some (fst s ++ [p], out, 0) | None => None end
  end.
Fixpoint r_run (s : list Z * list Z) (ops : list wop) : option (list Z * list Z * list Z) :=
  match ops with
  | [] => Some (s, [])
  | o :: ops =>
    match r_step s o with
    | None => None
    | Some (s', r) => match r_run s' ops with None => None | Some (s'', rs) => Some (s'', r :: rs) end
    end
  end.

(** The objects: [count] of them, one after the other. *)
Definition objects (start size : Z) (count : nat) : list Z := map (fun i => start + size * Z.of_nat i) (seq 0 count).

(** A well: a heap whose two lists hold these objects, for an application that has
    these out. (What the heap looks like is not said: this is what calls return.) If
    nothing is out then nothing is accepted. *)
Definition behaves (fuel : nat) (h : ListModel.heap) (inside out : list Z) : Prop :=
  forall ops inside' out' results, r_run (inside, out) ops = Some (inside', out', results) ->
    exists h', well_run fuel h ops = Some (h', results) /\
      well_isempty h' WELL = (match inside' with [] => true | _ => false end) /\
      well_isfull h' WELL = (match out' with [] => true | _ => false end) /\
      well_fini h' WELL = well_fini h WELL /\
      (out' = [] -> forall p, well_free fuel h' WELL p = Some (h', -1)).

(** No two objects overlap. *)
Definition apart (size : Z) (objs : list Z) : Prop := forall p q, In p objs -> In q objs -> p <> q -> p + size <= q \/ q + size <= p.

(** What a well of these objects does for every application: those that are out are
    different objects of the well; the next call for one returns null exactly if all of
    them are out, and otherwise an object that is not out; and each that is out is
    accepted back. *)
Definition serves (fuel : nat) (h : ListModel.heap) (objs : list Z) : Prop :=
  forall ops inside out results, r_run (objs, []) ops = Some (inside, out, results) ->
    NoDup out /\ incl out objs /\
    (exists h' r, well_run fuel h (ops ++ [Alloc]) = Some (h', results ++ [r]) /\
      (r = 0 <-> length out = length objs) /\ (r <> 0 -> In r objs /\ ~ In r out)) /\
    (forall p, In p out -> exists h', well_run fuel h (ops ++ [Free p]) = Some (h', results ++ [0])).

(** For examples: an allocator, memory, and a well of three objects of ten octets. *)
Definition example_malloc (start : Z) : MemoryModel.memalign_t := fun a s => if a =? 4096 then (0, start) else (22, 0).
Definition empty_heap : ListModel.heap := fun _ => ListModel.Node 0 0 0 0.
Definition example_well : option (option ListModel.heap) := well_init 4096 64 (example_malloc 4096) (example_malloc 8192) 5 empty_heap 10 3 0 0 0.
Definition run_well (ops : list wop) : option (list Z) :=
  match example_well with Some (Some h) => option_map snd (well_run 5 h ops) | _ => None end.
