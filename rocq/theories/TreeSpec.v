(** Specification for the red-black trees. *)

From Coq Require Import ZArith List Bool Sorting.Sorted.
From Verif Require Import TreeModel.
Import ListNotations.
Local Open Scope Z_scope.

(** The shape of a tree: each node with its colour ([true] is black) and its pointer. *)
Inductive tree := E | N (c : bool) (l : tree) (x : Z) (r : tree).

Fixpoint inorder (t : tree) : list Z :=
  match t with E => [] | N _ l x r => inorder l ++ x :: inorder r end.
Fixpoint depth (t : tree) : nat :=
  match t with E => 0%nat | N _ l _ r => S (Nat.max (depth l) (depth r)) end.
(** The pointer to a tree. *)
Definition top (t : tree) : Z := match t with E => 0 | N _ _ x _ => x end.

(** The memory holds the tree [t], below the node [par], in the tree of the root [r]:
    every node has the pointers, the colour, and no error. *)
Fixpoint tree_at (s : st) (r par : Z) (t : tree) : Prop :=
  match t with
  | E => True
  | N c lt x rt =>
    x <> 0 /\ (exists v, nodes s x = Some (Node par (top lt) (top rt) r c false v)) /\ tree_at s r x lt /\ tree_at s r x rt
  end.

(** The tree of a root. *)
Definition holds (s : st) (r : Z) (t : tree) : Prop := roots s r = top t /\ tree_at s r 0 t /\ NoDup (inorder t).

(** Red-black trees: no red node has a red child, and every path has the same number
    of black nodes, the black height. *)
Definition isb (t : tree) : bool := match t with E => true | N c _ _ _ => c end.
Inductive redblack : tree -> nat -> Prop :=
  | RB_leaf : redblack E 0
  | RB_red l x r n : redblack l n -> redblack r n -> isb l = true -> isb r = true -> redblack (N RED l x r) n
  | RB_black l x r n : redblack l n -> redblack r n -> redblack (N BLACK l x r) (S n).

(** What the application may do: use nodes of its own, roots, and, for the calls that
    change nodes that should not be in a tree, nodes that are in none. A position must
    be in a tree. *)
Definition orphan (s : st) (p : Z) : Prop := exists n, nodes s p = Some n /\ root n = 0.
Definition planted (s : st) (p : Z) : Prop := exists n, nodes s p = Some n /\ root n <> 0.
Definition isnode (s : st) (p : Z) : Prop := nodes s p <> None.
Definition permitted (s : st) (o : op) : Prop :=
  match o with
  | Insert r p _ | Find r p => r <> 0 /\ isnode s p
  | InsertLeft p q r | InsertRight p q r => isnode s p /\ (q = 0 /\ r <> 0 \/ planted s q)
  | Remove p => p = 0 \/ isnode s p
  | Replace p q => isnode s p /\ isnode s q
  | First r | Last r | Audit r | IsEmpty r => r <> 0
  | Next p | Prev p => isnode s p
  | Init p | Store p _ => orphan s p
  end.

(** A history of calls. A call takes some number of iterations. *)
Inductive history (cmp : payload -> payload -> Z) (allow : st -> op -> Prop) (s0 : st) : list (op * Z) -> st -> Prop :=
  | H_start : history cmp allow s0 [] s0
  | H_call h s o fuel s' r :
      history cmp allow s0 h s -> allow s o -> step cmp fuel s o = Some (s', r) ->
      history cmp allow s0 (h ++ [(o, r)]) s'.

(** A comparator of the application: a total order of the payloads, in which several
    may be equal. *)
Definition total_order (cmp : payload -> payload -> Z) : Prop :=
  (forall a b, cmp a b < 0 <-> cmp b a > 0) /\
  (forall a b c, cmp a b <= 0 -> cmp b c <= 0 -> cmp a c <= 0).

(** With a comparator, a replacement must have the key of what it replaces, and nothing
    is inserted at a position by hand. *)
Definition keyed (cmp : payload -> payload -> Z) (s : st) (o : op) : Prop :=
  permitted s o /\
  match o with
  | InsertLeft _ _ _ | InsertRight _ _ _ => False
  | Replace p q => exists a b, get pay s p = Some a /\ get pay s q = Some b /\ cmp a b = 0
  | _ => True
  end.

(** The reference: for each root the list of the nodes in ascending order, for each
    node the root it is in, and the payloads. *)
Record ref := Ref { content : Z -> list Z; owner : Z -> Z; pays : Z -> payload }.
Definition upd {A} (f : Z -> A) (x : Z) (v : A) : Z -> A := fun y => if y =? x then v else f y.
Definition ref0 (pays : Z -> payload) : ref := Ref (fun _ => []) (fun _ => 0) pays.
Definition subst (old new : Z) (l : list Z) : list Z := map (fun q => if q =? old then new else q) l.
Definition without (p : Z) (l : list Z) : list Z := filter (fun q => negb (q =? p)) l.
(** The element after [p] in a list, zero if it is the last. *)
Fixpoint following (p : Z) (l : list Z) : Z :=
  match l with
  | [] => 0
  | x :: l' => if x =? p then hd 0 l' else following p l'
  end.

(** What each call does to the reference, and its result. *)
Definition ref_step (cmp : payload -> payload -> Z) (a : ref) (o : op) : ref * Z :=
  let key q p := cmp (pays a q) (pays a p) in
  match o with
  | Insert r p rep =>
    match List.find (fun q => key q p =? 0) (content a r) with
    | None =>
      if owner a p =? 0 then
        (Ref (upd (content a) r (filter (fun q => key q p <? 0) (content a r) ++ p :: filter (fun q => 0 <? key q p) (content a r)))
             (upd (owner a) p r) (pays a), p)
      else (a, 0)
    | Some q =>
      if rep && (owner a p =? 0) then
        (Ref (upd (content a) r (subst q p (content a r))) (upd (upd (owner a) q 0) p r) (pays a), q)
      else (a, 0)
    end
  | Replace q p =>
    if (owner a q =? 0) || negb (owner a p =? 0) then (a, 0)
    else (Ref (upd (content a) (owner a q) (subst q p (content a (owner a q)))) (upd (upd (owner a) q 0) p (owner a q)) (pays a), q)
  | Remove p =>
    if (p =? 0) || (owner a p =? 0) then (a, 0)
    else (Ref (upd (content a) (owner a p) (without p (content a (owner a p)))) (upd (owner a) p 0) (pays a), p)
  | Find r p => (a, match List.find (fun q => key q p =? 0) (content a r) with Some q => q | None => 0 end)
  | First r => (a, hd 0 (content a r))
  | Last r => (a, List.last (content a r) 0)
  | Next p => (a, following p (content a (owner a p)))
  | Prev p => (a, following p (rev (content a (owner a p))))
  | Audit _ => (a, 0)
  | IsEmpty r => (a, if match content a r with [] => true | _ => false end then 1 else 0)
  | Store p v => (Ref (content a) (owner a) (upd (pays a) p v), 0)
  | Init _ | InsertLeft _ _ _ | InsertRight _ _ _ => (a, 0)
  end.
Fixpoint ref_run (cmp : payload -> payload -> Z) (a : ref) (l : list op) : ref * list Z :=
  match l with
  | [] => (a, [])
  | o :: l => let '(a, z) := ref_step cmp a o in let '(a, zs) := ref_run cmp a l in (a, z :: zs)
  end.

(** The payload of a node, and nodes in strictly ascending order. *)
Definition payof (s : st) (p : Z) : payload := match nodes s p with Some n => pay n | None => 0 end.
Definition ascending (cmp : payload -> payload -> Z) (s : st) (L : list Z) : Prop :=
  StronglySorted (fun p q => cmp (payof s p) (payof s q) < 0) L.

(** Where the history of the calls and of their results says a node is: an insertion
    that yields something puts the node into the tree, in place of the node yielded if
    that is another one; a removal takes it away; a replacement puts the new node where
    the old one was. *)
Definition note (m : Z -> Z) (e : op * Z) : Z -> Z :=
  match e with
  | (Insert r p _, z) => if z =? 0 then m else upd (upd m z 0) p r
  | (Remove p, z) => if z =? 0 then m else upd m p 0
  | (Replace q p, z) => if z =? 0 then m else upd (upd m q 0) p (m q)
  | _ => m
  end.
Definition placed (h : list (op * Z)) : Z -> Z := fold_left note h (fun _ => 0).
(** The payload the application stored last. *)
Definition note_pay (m : Z -> payload) (e : op * Z) : Z -> payload :=
  match e with (Store p v, _) => upd m p v | _ => m end.
Definition stored (pays : Z -> payload) (h : list (op * Z)) : Z -> payload := fold_left note_pay h pays.

(** Enough iterations for the trees of a state. *)
Definition suffices (s : st) (fuel : nat) : Prop :=
  forall r t, r <> 0 -> holds s r t -> (2 * Nat.log2 (length (inorder t) + 1) + 2 <= fuel)%nat.

(** The octets of a string, without its terminator. *)
Definition text (l : list Z) : Prop := Forall (fun x => 0 < x <= 255) l.

(** The order of the dictionary: one string is before another if it is a proper beginning
    of the other, or has the smaller octet where they first differ. *)
Definition before (a b : list Z) : Prop :=
  exists common, (exists y rest, a = common /\ b = common ++ y :: rest) \/
    (exists x ra y rb, a = common ++ x :: ra /\ b = common ++ y :: rb /\ x < y).
