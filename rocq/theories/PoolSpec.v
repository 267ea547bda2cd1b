(** Specification for object pools. *)

From Coq Require Import ZArith List Bool Arith.
From Verif Require Import ListModel ListSpec PoolModel.
Import ListNotations.
Local Open Scope nat_scope.

(** A pool: the size of its objects, and those that were returned, in that order. *)
Record pool := Pool { name : nat; bytes : Z; queue : list nat }.
(** The pools; the objects that are out, with the pool they came from; and the lists the
    program has made of its own nodes and of the objects that it has. *)
Record state := State { pools : list pool; out : list (nat * nat); lists : list (list nat) }.

Definition pool_of (p : nat) (s : state) : option pool := find (fun k => name k =? p) (pools s).
Definition with_queue (p : nat) (q : list nat) (s : state) : list pool := map (fun k => if name k =? p then Pool p (bytes k) q else k) (pools s).
(** Everything that exists. *)
Definition nodes (s : state) : list nat := concat (map (fun k => name k :: queue k) (pools s)) ++ concat (lists s).
Definition return_to (x : nat) (o : list (nat * nat)) : option nat := option_map snd (find (fun e => fst e =? x) o).
Definition outside (x : nat) (o : list (nat * nat)) : list (nat * nat) := filter (fun e => negb (fst e =? x)) o.

(** A link, the payload, and what it takes to have the next multiple of eight. *)
Definition need (k : pool) : Z := (8 * ((32 + bytes k + 7) / 8))%Z.

(** What each call does. [None] is a program that uses what it does not have, or a heap
    that returns memory which is in use. *)
Definition p_step (s : state) (o : PoolModel.pop) : option (state * pres) :=
  match o with
  | PAlloc p m =>
    match pool_of p s with
    | None => None
    | Some k =>
      match queue k with
      | x :: q => Some (State (with_queue p q s) ((x, p) :: out s) ([x] :: lists s), Got x None)
      | [] =>
        if m =? 0 then Some (s, Got 0 (Some (need k)))
        else if mem m (nodes s) then None
        else Some (State (pools s) ((m, p) :: out s) ([m] :: lists s), Got m (Some (need k)))
      end
    end
  | PFree x =>
    match return_to x (out s) with
    | None => None
    | Some p =>
      match pool_of p s with
      | None => None
      | Some k => Some (State (with_queue p (queue k ++ [x]) s) (outside x (out s)) (detach x (lists s)), Done)
      end
    end
  | PUse o =>
    if forallb (fun x => mem x (concat (lists s))) (operands o) then let '(l, x) := s_step (lists s) o in Some (State (pools s) (out s) l, Returned x) else None
  | PFini p =>
    match pool_of p s with
    | None => None
    | Some k => Some (State (with_queue p [] s) (out s) (lists s), Freed (queue k))
    end
  end.
Fixpoint p_run (s : state) (ops : list PoolModel.pop) : option (state * list pres) :=
  match ops with
  | [] => Some (s, [])
  | o :: ops =>
    match p_step s o with
    | None => None
    | Some (s', r) => match p_run s' ops with None => None | Some (s'', rs) => Some (s'', r :: rs) end
    end
  end.
Definition start (ps : list (nat * Z)) (own : list nat) : state :=
  State (map (fun '(p, size) => Pool p size []) ps) [] (map (fun x => [x]) own).
