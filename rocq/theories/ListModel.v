(** Model of diminuto_list.c and of the inline functions of diminuto_list.h: circular
    doubly linked lists whose nodes point to the root of their list. *)

From Coq Require Import ZArith List Bool Arith.
From Verif Require Import CUtil.
Import ListNotations.
Local Open Scope nat_scope.

(** inc/com/diag/diminuto/diminuto_list.h:101-106 diminuto_list_t. Pointers to nodes
    are numbers, NULL (line 127) is zero. *)
Record node := Node { next : nat; prev : nat; root : nat; data : Z }.
Definition NULL : nat := 0.
(** The memory the nodes are in. *)
Definition heap := nat -> node.
Definition put (h : heap) (p : nat) (n : node) : heap := fun q => if q =? p then n else h q.
Definition set_next (h : heap) (p v : nat) : heap := put h p (Node v (prev (h p)) (root (h p)) (data (h p))).
Definition set_prev (h : heap) (p v : nat) : heap := put h p (Node (next (h p)) v (root (h p)) (data (h p))).
Definition set_root (h : heap) (p v : nat) : heap := put h p (Node (next (h p)) (prev (h p)) v (data (h p))).

(** inc/com/diag/diminuto/diminuto_list.h:267-272 diminuto_list_init. *)
Definition init (h : heap) (p : nat) : heap := set_root (set_prev (set_next h p p) p p) p p.

(** inc/com/diag/diminuto/diminuto_list.h:369-371 diminuto_list_isuninitialized,
    379-381 diminuto_list_isempty, 389-391 diminuto_list_isroot, 399-401
    diminuto_list_ismember, 410-412 diminuto_list_aresiblings, 440-444
    diminuto_list_initif. *)
Definition isuninitialized (h : heap) (p : nat) : bool := NULL =? root (h p).
Definition isempty (h : heap) (p : nat) : bool := p =? next (h p).
Definition isroot (h : heap) (p : nat) : bool := p =? root (h p).
Definition ismember (h : heap) (r p : nat) : bool := r =? root (h p).
Definition aresiblings (h : heap) (p q : nat) : bool := root (h p) =? root (h q).
Definition initif (h : heap) (p : nat) : heap := if isuninitialized h p then init h p else h.

(** src/diminuto_list.c:27-43 reroot. The result of an operation is None if a loop runs
    for more than [fuel] iterations. *)
Fixpoint reroot_loop (fuel : nat) (h : heap) (nextp firstp lastp rootp : nat) : option heap :=
  match fuel with
  | O => None
  | S fuel =>
      let h := set_root h nextp rootp in
      if nextp =? lastp then Some h
      else
        let nextp := next (h nextp) in
        if nextp =? firstp then Some h else reroot_loop fuel h nextp firstp lastp rootp
  end.
Definition reroot_range (fuel : nat) (h : heap) (firstp lastp rootp : nat) : option heap := reroot_loop fuel h firstp firstp lastp rootp.

(** src/diminuto_list.c:45-49 diminuto_list_reroot. *)
Definition reroot (fuel : nat) (h : heap) (nodep : nat) : option heap := reroot_range fuel h nodep (prev (h nodep)) nodep.

(** src/diminuto_list.c:51-64 diminuto_list_remove. *)
Definition remove (fuel : nat) (h : heap) (nodep : nat) : option heap :=
  if negb (nodep =? next (h nodep)) then
    let* h := if nodep =? root (h nodep) then reroot_range fuel h (next (h nodep)) (prev (h nodep)) (next (h nodep)) else Some h in
    let h := set_prev h (next (h nodep)) (prev (h nodep)) in
    let h := set_next h (prev (h nodep)) (next (h nodep)) in
    Some (init h nodep)
  else Some h.

(** src/diminuto_list.c:66-78 diminuto_list_insert. *)
Definition insert (fuel : nat) (h : heap) (rootp nodep : nat) : option heap :=
  let* h := remove fuel h nodep in
  let h := set_next h nodep (next (h rootp)) in
  let h := set_prev h nodep rootp in
  let h := set_prev h (next (h rootp)) nodep in
  let h := set_next h rootp nodep in
  Some (set_root h nodep (root (h rootp))).

(** src/diminuto_list.c:92-98: whether the root is met from [nodep]'s successor to [lastp]. *)
Fixpoint cut_loop (fuel : nat) (h : heap) (nodep lastp rootp : nat) : option bool :=
  match fuel with
  | O => None
  | S fuel =>
      let nodep := next (h nodep) in
      if nodep =? rootp then Some true
      else if nodep =? lastp then Some false
      else cut_loop fuel h nodep lastp rootp
  end.
(** src/diminuto_list.c:80-107 diminuto_list_cut. *)
Definition cut (fuel : nat) (h : heap) (firstp lastp : nat) : option heap :=
  if negb (root (h firstp) =? root (h lastp)) then Some h
  else if prev (h firstp) =? lastp then Some h
  else if firstp =? lastp then remove fuel h firstp
  else
    let* met := cut_loop fuel h (prev (h firstp)) lastp (root (h firstp)) in
    let* h := if met : bool then reroot_range fuel h (next (h lastp)) (prev (h firstp)) (next (h lastp)) else Some h in
    let h := set_next h (prev (h firstp)) (next (h lastp)) in
    let h := set_prev h (next (h lastp)) (prev (h firstp)) in
    let h := set_prev h firstp lastp in
    let h := set_next h lastp firstp in
    reroot_range fuel h firstp lastp firstp.

(** src/diminuto_list.c:109-126 diminuto_list_splice. *)
Definition splice (fuel : nat) (h : heap) (top fromp : nat) : option heap :=
  if root (h fromp) =? root (h top) then Some h
  else if fromp =? next (h fromp) then insert fuel h top fromp
  else
    let* h := reroot_range fuel h fromp (prev (h fromp)) (root (h top)) in
    let h := set_next h (prev (h fromp)) (next (h top)) in
    let h := set_prev h (next (h top)) (prev (h fromp)) in
    let h := set_next h top fromp in
    Some (set_prev h fromp top).

(** src/diminuto_list.c:128-135 diminuto_list_replace. *)
Definition replace (fuel : nat) (h : heap) (oldp newp : nat) : option heap :=
  let* h := insert fuel h oldp newp in remove fuel h oldp.

(** inc/com/diag/diminuto/diminuto_list.h:463-467 diminuto_list_head,
    475-479 diminuto_list_tail. *)
Definition head (h : heap) (p : nat) : nat := if isempty h (root (h p)) then NULL else next (h (root (h p))).
Definition tail (h : heap) (p : nat) : nat := if isempty h (root (h p)) then NULL else prev (h (root (h p))).

(** inc/com/diag/diminuto/diminuto_list.h:491-493 diminuto_list_push (also 561-563
    diminuto_list_express), 500-504 diminuto_list_pop, 516-518 diminuto_list_enqueue (also
    550-552 diminuto_list_send), 525-529 diminuto_list_dequeue (also 540-542
    diminuto_list_receive). Pop and dequeue also return the node, or NULL. *)
Definition push (fuel : nat) (h : heap) (stackp nodep : nat) : option heap := insert fuel h (root (h stackp)) nodep.
Definition pop (fuel : nat) (h : heap) (stackp : nat) : option (heap * nat) :=
  if isempty h (root (h stackp)) then Some (h, NULL)
  else let n := next (h (root (h stackp))) in let* h := remove fuel h n in Some (h, n).
Definition enqueue (fuel : nat) (h : heap) (queuep nodep : nat) : option heap := insert fuel h (prev (h (root (h queuep)))) nodep.
Definition dequeue (fuel : nat) (h : heap) (queuep : nat) : option (heap * nat) :=
  if isempty h (root (h queuep)) then Some (h, NULL)
  else let n := next (h (root (h queuep))) in let* h := remove fuel h n in Some (h, n).

(** src/diminuto_list.c:180-213 diminuto_list_audit with the given limit; the result is
    the incorrect node, or NULL. (The logging is not modelled.) *)
Definition bad (h : heap) (p rootp : nat) : bool :=
  negb (root (h p) =? rootp) || negb (prev (h (next (h p))) =? p) || negb (next (h (prev (h p))) =? p).
Fixpoint audit_loop (limit : nat) (h : heap) (nextp prevp rootp : nat) : nat :=
  if bad h nextp rootp then nextp
  else if bad h prevp rootp then prevp
  else
    match limit with
    | O | S O => rootp
    | S limit => if next (h nextp) =? prev (h prevp) then NULL else audit_loop limit h (next (h nextp)) (prev (h prevp)) rootp
    end.
Definition audit (limit : nat) (h : heap) (nodep : nat) : nat := audit_loop limit h nodep nodep (root (h nodep)).

(** The operations, as a client calls them. *)
Inductive op := Remove (x : nat) | Insert (p x : nat) | Cut (a b : nat) | Splice (t f : nat) | Replace (o n : nat) |
  Reroot (x : nat) | Push (s x : nat) | Pop (s : nat) | Enqueue (q x : nat) | Dequeue (q : nat).
(** The heap after an operation and the node it returns. *)
Definition step (fuel : nat) (h : heap) (o : op) : option (heap * nat) :=
  match o with
  | Remove x => let* h := remove fuel h x in Some (h, x)
  | Insert p x => let* h := insert fuel h p x in Some (h, x)
  | Cut a b => let* h := cut fuel h a b in Some (h, a)
  | Splice t f => let* h := splice fuel h t f in Some (h, f)
  | Replace o n => let* h := replace fuel h o n in Some (h, o)
  | Reroot x => let* h := reroot fuel h x in Some (h, x)
  | Push s x => let* h := push fuel h s x in Some (h, x)
  | Pop s => pop fuel h s
  | Enqueue q x => let* h := enqueue fuel h q x in Some (h, x)
  | Dequeue q => dequeue fuel h q
  end.
Fixpoint run (fuel : nat) (h : heap) (ops : list op) : option (heap * list nat) :=
  match ops with
  | [] => Some (h, [])
  | o :: ops => let* '(h, x) := step fuel h o in let* '(h, xs) := run fuel h ops in Some (h, x :: xs)
  end.
(** Every node of a list initialised. *)
Definition init_all (h : heap) (nodes : list nat) : heap := fold_left init nodes h.
