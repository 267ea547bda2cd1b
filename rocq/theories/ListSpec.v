(** What circular lists are, and what the operations do to them seen as sequences. *)

From Coq Require Import ZArith List Bool Arith.
From Verif Require Import ListModel.
Import ListNotations.
Local Open Scope nat_scope.

(** Integrity of the nodes of a set, in terms of the links alone. *)
Fixpoint follow (h : heap) (k x : nat) : nat := match k with O => x | S k => follow h k (next (h x)) end.
Definition integral (h : heap) (nodes : list nat) : Prop := forall x, In x nodes ->
  In (next (h x)) nodes /\ In (prev (h x)) nodes /\ In (root (h x)) nodes /\
  prev (h (next (h x))) = x /\ next (h (prev (h x))) = x /\
  root (h (next (h x))) = root (h x) /\ root (h (prev (h x))) = root (h x) /\
  (exists k, follow h k x = root (h x)).

(** Two nodes are linked: the second is next of the first, the first previous of the second. *)
Definition adjacent (h : heap) (a b : nat) : Prop := next (h a) = b /\ prev (h b) = a.
Fixpoint chain (h : heap) (l : list nat) : Prop :=
  match l with a :: (b :: _) as t => adjacent h a b /\ chain h t | _ => True end.
(** [root :: rest] is a list of the heap: the nodes are linked in that order, the last to
    the first, and all have the first as their root. *)
Definition ring (h : heap) (r : list nat) : Prop :=
  r <> [] /\ chain h r /\ adjacent h (last r 0) (hd 0 r) /\ Forall (fun x => root (h x) = hd 0 r) r.
(** The heap holds exactly these lists (in whatever order), none sharing a node. *)
Definition represents (h : heap) (rs : list (list nat)) : Prop := NoDup (concat rs) /\ Forall (ring h) rs.

(** The operations on lists as sequences of which the first is the root. *)
Definition mem (x : nat) (r : list nat) : bool := existsb (Nat.eqb x) r.
Definition nonempty (r : list nat) : bool := match r with [] => false | _ => true end.
Definition list_of (x : nat) (rs : list (list nat)) : list nat := match find (mem x) rs with Some r => r | None => [] end.
Definition others (x : nat) (rs : list (list nat)) : list (list nat) := filter (fun r => negb (mem x r)) rs.
(** Without a node; with a sequence after a node; turned so that a node is first. *)
Definition without (x : nat) (r : list nat) : list nat := filter (fun y => negb (y =? x)) r.
Definition place (p : nat) (l r : list nat) : list nat := flat_map (fun y => if y =? p then p :: l else [y]) r.
Fixpoint from (x : nat) (r : list nat) : list nat := match r with [] => [] | y :: t => if y =? x then r else from x t end.
Fixpoint upto (x : nat) (r : list nat) : list nat := match r with [] => [] | y :: t => if y =? x then [] else y :: upto x t end.
Definition turn (x : nat) (r : list nat) : list nat := from x r ++ upto x r.

Definition detach (x : nat) (rs : list (list nat)) : list (list nat) := filter nonempty (map (without x) rs).
Definition s_remove (x : nat) (rs : list (list nat)) : list (list nat) := [x] :: detach x rs.
Definition s_insert (p x : nat) (rs : list (list nat)) : list (list nat) :=
  if p =? x then s_remove x rs else map (place p [x]) (detach x rs).
Definition s_reroot (x : nat) (rs : list (list nat)) : list (list nat) := turn x (list_of x rs) :: others x rs.
Definition s_splice (t f : nat) (rs : list (list nat)) : list (list nat) :=
  if mem t (list_of f rs) then rs else map (place t (turn f (list_of f rs))) (others f rs).
(** From [a] to [b], both included, and what follows, of the list turned to [a]. *)
Definition s_cut (a b : nat) (rs : list (list nat)) : list (list nat) :=
  let r := list_of a rs in
  if negb (mem b r) then rs
  else
    let segment := upto b (turn a r) ++ [b] in
    let rest := tl (from b (turn a r)) in
    match rest with
    | [] => rs
    | _ => segment :: (if mem (hd 0 r) segment then rest else turn (hd 0 r) rest) :: others a rs
    end.
Definition s_replace (o n : nat) (rs : list (list nat)) : list (list nat) := s_remove o (s_insert o n rs).
Definition s_step (rs : list (list nat)) (o : op) : list (list nat) * nat :=
  match o with
  | Remove x => (s_remove x rs, x)
  | Insert p x => (s_insert p x rs, x)
  | Cut a b => (s_cut a b rs, a)
  | Splice t f => (s_splice t f rs, f)
  | Replace o n => (s_replace o n rs, o)
  | Reroot x => (s_reroot x rs, x)
  | Push s x => (s_insert (hd 0 (list_of s rs)) x rs, x)
  | Enqueue q x => (s_insert (last (list_of q rs) 0) x rs, x)
  | Pop s | Dequeue s => match list_of s rs with _ :: x :: _ => (s_remove x rs, x) | _ => (rs, NULL) end
  end.
Fixpoint s_run (rs : list (list nat)) (ops : list op) : list (list nat) * list nat :=
  match ops with
  | [] => (rs, [])
  | o :: ops => let '(rs, x) := s_step rs o in let '(rs, xs) := s_run rs ops in (rs, x :: xs)
  end.

(** The nodes an operation is given. *)
Definition operands (o : op) : list nat :=
  match o with
  | Remove x | Reroot x | Pop x | Dequeue x => [x]
  | Insert p x | Cut p x | Splice p x | Replace p x | Push p x | Enqueue p x => [p; x]
  end.

(** Following the previous links. *)
Fixpoint back (h : heap) (k x : nat) : nat := match k with O => x | S k => back h k (prev (h x)) end.
(** The nodes that are met in fewer than [k] steps, in one direction or the other. *)
Definition visited (h : heap) (k x : nat) : list nat := map (fun j => follow h j x) (seq 0 k) ++ map (fun j => back h j x) (seq 0 k).
