(** Model of diminuto_tree.c, of the inline functions of diminuto_tree.h and of
    diminuto_store.h: red-black trees whose nodes are provided by the application. *)

From Coq Require Import ZArith List Bool.
From Verif Require Import CInt CUtil.
Import ListNotations.
Local Open Scope Z_scope.

(** inc/com/diag/diminuto/diminuto_tree.h:76-84 diminuto_tree_t, and
    inc/com/diag/diminuto/diminuto_store.h:40-44 diminuto_store_t, which embeds one.
    Pointers to nodes, and to roots, are numbers; NULL (tree.h:121), EMPTY (127) and
    ORPHAN (133) are zero. The colour is one bit: [true] is BLACK (tree.h:56-59). What
    belongs to the application (the data pointer of a tree node, the key and value of
    a store node, and whatever they point to) is one value, the payload. *)
Definition payload := Z.
Record node := Node {
  parent : Z; left : Z; right : Z; root : Z; color : bool; error : bool; pay : payload
}.
Definition RED : bool := false.
Definition BLACK : bool := true.

(** The nodes of the application: [None] is not a node, and using it is undefined
    behaviour. The roots: the variables of type diminuto_tree_root_t. *)
Record st := St { nodes : Z -> option node; roots : Z -> Z }.
Definition load_root (s : st) (r : Z) : option Z := if r =? 0 then None else Some (roots s r).
Definition store_root (s : st) (r v : Z) : option st :=
  if r =? 0 then None else Some (St (nodes s) (fun x => if x =? r then v else roots s x)).
Definition get {A} (f : node -> A) (s : st) (p : Z) : option A :=
  match nodes s p with Some n => Some (f n) | None => None end.
Definition change (f : node -> node) (s : st) (p : Z) : option st :=
  match nodes s p with
  | Some n => Some (St (fun x => if x =? p then Some (f n) else nodes s x) (roots s))
  | None => None
  end.
Definition with_parent v n := Node v (left n) (right n) (root n) (color n) (error n) (pay n).
Definition with_left v n := Node (parent n) v (right n) (root n) (color n) (error n) (pay n).
Definition with_right v n := Node (parent n) (left n) v (root n) (color n) (error n) (pay n).
Definition with_root v n := Node (parent n) (left n) (right n) v (color n) (error n) (pay n).
Definition with_color v n := Node (parent n) (left n) (right n) (root n) v (error n) (pay n).
Definition with_error v n := Node (parent n) (left n) (right n) (root n) (color n) v (pay n).
Definition with_pay v n := Node (parent n) (left n) (right n) (root n) (color n) (error n) v.
Definition set_parent s p v := change (with_parent v) s p.
Definition set_left s p v := change (with_left v) s p.
Definition set_right s p v := change (with_right v) s p.
Definition set_color s p v := change (with_color v) s p.
Definition set_error s p := change (with_error true) s p.

(** tree.h:304-349: isleaf, isempty, isorphan, isred, isblack. *)
Definition isleaf (p : Z) : bool := p =? 0.
Definition isempty (s : st) (rootp : Z) : option bool := let* p := load_root s rootp in Some (p =? 0).
Definition isorphan (s : st) (p : Z) : option bool := let* r := get root s p in Some (r =? 0).
Definition isred (s : st) (p : Z) : option bool := let* c := get color s p in Some (Bool.eqb c RED).
Definition isblack (s : st) (p : Z) : option bool := let* c := get color s p in Some (Bool.eqb c BLACK).

(** tree.h:406-416 diminuto_tree_init: not the data. *)
Definition init (s : st) (p : Z) : option st := change (fun n => Node 0 0 0 0 RED false (pay n)) s p.

(** tree.c:30-57 rotate_left. *)
Definition rotate_left (s : st) (nodep rootp : Z) : option st :=
  let* rightp := get right s nodep in
  let* parentp := get parent s nodep in
  let* rl := get left s rightp in
  let* s := set_right s nodep rl in
  let* nr := get right s nodep in
  let* s := if negb (isleaf nr) then let* rl := get left s rightp in set_parent s rl nodep else Some s in
  let* s := set_left s rightp nodep in
  let* s := set_parent s rightp parentp in
  let* s :=
    if isleaf parentp then store_root s rootp rightp
    else let* pl := get left s parentp in
      if nodep =? pl then set_left s parentp rightp
      else let* pr := get right s parentp in
        if nodep =? pr then set_right s parentp rightp
        else set_error s nodep in
  set_parent s nodep rightp.

(** tree.c:59-86 rotate_right. *)
Definition rotate_right (s : st) (nodep rootp : Z) : option st :=
  let* leftp := get left s nodep in
  let* parentp := get parent s nodep in
  let* lr := get right s leftp in
  let* s := set_left s nodep lr in
  let* nl := get left s nodep in
  let* s := if negb (isleaf nl) then let* lr := get right s leftp in set_parent s lr nodep else Some s in
  let* s := set_right s leftp nodep in
  let* s := set_parent s leftp parentp in
  let* s :=
    if isleaf parentp then store_root s rootp leftp
    else let* pr := get right s parentp in
      if nodep =? pr then set_right s parentp leftp
      else let* pl := get left s parentp in
        if nodep =? pl then set_left s parentp leftp
        else set_error s nodep in
  set_parent s nodep leftp.

(** A test of a child that may be a leaf: isleaf || isblack, and !isleaf && isred. *)
Definition leaf_or_black (s : st) (p : Z) : option bool := if isleaf p then Some true else isblack s p.
Definition real_and_red (s : st) (p : Z) : option bool := if isleaf p then Some false else isred s p.

(** tree.c:88-153 insert_fixup. The loop takes at most [fuel] iterations, or else the
    result is [None]. *)
Fixpoint insert_fixup (fuel : nat) (s : st) (nodep rootp : Z) : option st :=
  match fuel with
  | O => None
  | S fuel =>
    let finish (s : st) : option st := let* r := load_root s rootp in set_color s r BLACK in
    let* parentp := get parent s nodep in
    let* more := real_and_red s parentp in
    if negb more then finish s
    else
      let* grandp := get parent s parentp in
      let* gl := get left s grandp in
      if parentp =? gl then
        let* unclep := get right s grandp in
        let* ur := real_and_red s unclep in
        if ur then
          let* s := set_color s unclep BLACK in
          let* s := set_color s parentp BLACK in
          let* s := set_color s grandp RED in
          insert_fixup fuel s grandp rootp
        else
          let* pr := get right s parentp in
          let* '(s, nodep, parentp) :=
            if pr =? nodep then let* s := rotate_left s parentp rootp in Some (s, parentp, nodep)
            else Some (s, nodep, parentp) in
          let* s := set_color s parentp BLACK in
          let* s := set_color s grandp RED in
          let* s := rotate_right s grandp rootp in
          insert_fixup fuel s nodep rootp
      else
        let* gr := get right s grandp in
        if parentp =? gr then
          let* unclep := get left s grandp in
          let* ur := real_and_red s unclep in
          if ur then
            let* s := set_color s unclep BLACK in
            let* s := set_color s parentp BLACK in
            let* s := set_color s grandp RED in
            insert_fixup fuel s grandp rootp
          else
            let* pl := get left s parentp in
            let* '(s, nodep, parentp) :=
              if pl =? nodep then let* s := rotate_right s parentp rootp in Some (s, parentp, nodep)
              else Some (s, nodep, parentp) in
            let* s := set_color s parentp BLACK in
            let* s := set_color s grandp RED in
            let* s := rotate_left s grandp rootp in
            insert_fixup fuel s nodep rootp
        else
          let* s := set_error s nodep in
          insert_fixup fuel s nodep rootp
  end.

(** tree.c:155-263 remove_fixup. *)
Fixpoint remove_fixup (fuel : nat) (s : st) (nodep parentp rootp : Z) : option st :=
  match fuel with
  | O => None
  | S fuel =>
    let finish (s : st) (nodep : Z) : option st := if negb (isleaf nodep) then set_color s nodep BLACK else Some s in
    let* lb := leaf_or_black s nodep in
    let* r := load_root s rootp in
    if negb (lb && negb (nodep =? r)) then finish s nodep
    else
      let* pl := get left s parentp in
      if pl =? nodep then
        let* siblingp := get right s parentp in
        let* sr := isred s siblingp in
        let* '(s, siblingp) :=
          if sr then
            let* s := set_color s siblingp BLACK in
            let* s := set_color s parentp RED in
            let* s := rotate_left s parentp rootp in
            let* siblingp := get right s parentp in Some (s, siblingp)
          else Some (s, siblingp) in
        let* sl := get left s siblingp in
        let* slb := leaf_or_black s sl in
        let* sr := get right s siblingp in
        let* srb := leaf_or_black s sr in
        if slb && srb then
          let* s := set_color s siblingp RED in
          let nodep := parentp in
          let* parentp := get parent s nodep in
          remove_fixup fuel s nodep parentp rootp
        else
          let* '(s, siblingp) :=
            if srb then
              let* s := if negb (isleaf sl) then set_color s sl BLACK else Some s in
              let* s := set_color s siblingp RED in
              let* s := rotate_right s siblingp rootp in
              let* siblingp := get right s parentp in Some (s, siblingp)
            else Some (s, siblingp) in
          let* c := get color s parentp in
          let* s := set_color s siblingp c in
          let* s := set_color s parentp BLACK in
          let* sr := get right s siblingp in
          let* s := if negb (isleaf sr) then set_color s sr BLACK else Some s in
          let* s := rotate_left s parentp rootp in
          let* nodep := load_root s rootp in
          finish s nodep
      else
        let* pr := get right s parentp in
        if pr =? nodep then
          let* siblingp := get left s parentp in
          let* sr := isred s siblingp in
          let* '(s, siblingp) :=
            if sr then
              let* s := set_color s siblingp BLACK in
              let* s := set_color s parentp RED in
              let* s := rotate_right s parentp rootp in
              let* siblingp := get left s parentp in Some (s, siblingp)
            else Some (s, siblingp) in
          let* sl := get left s siblingp in
          let* slb := leaf_or_black s sl in
          let* sr := get right s siblingp in
          let* srb := leaf_or_black s sr in
          if slb && srb then
            let* s := set_color s siblingp RED in
            let nodep := parentp in
            let* parentp := get parent s nodep in
            remove_fixup fuel s nodep parentp rootp
          else
            let* '(s, siblingp) :=
              if slb then
                let* s := if negb (isleaf sr) then set_color s sr BLACK else Some s in
                let* s := set_color s siblingp RED in
                let* s := rotate_left s siblingp rootp in
                let* siblingp := get left s parentp in Some (s, siblingp)
              else Some (s, siblingp) in
            let* c := get color s parentp in
            let* s := set_color s siblingp c in
            let* s := set_color s parentp BLACK in
            let* sl := get left s siblingp in
            let* s := if negb (isleaf sl) then set_color s sl BLACK else Some s in
            let* s := rotate_right s parentp rootp in
            let* nodep := load_root s rootp in
            finish s nodep
        else
          let* s := set_error s nodep in
          remove_fixup fuel s nodep parentp rootp
  end.

(** tree.c:265-273 link_together. The link is the variable of a root or a field of a
    node. *)
Inductive place := Root (r : Z) | Left (p : Z) | Right (p : Z).
Definition link_together (s : st) (nodep parentp rootp : Z) (linkp : place) : option st :=
  let* s := change (fun n => Node parentp 0 0 rootp RED (error n) (pay n)) s nodep in
  match linkp with
  | Root r => store_root s r nodep
  | Left p => set_left s p nodep
  | Right p => set_right s p nodep
  end.

(** tree.c:279-300 diminuto_tree_insert_left_or_root, 302-323
    diminuto_tree_insert_right_or_root. *)
Definition insert_left_or_root (fuel : nat) (s : st) (nodep parentp rootp : Z) : option (st * Z) :=
  let* o := isorphan s nodep in
  if negb o then Some (s, 0)
  else if isleaf parentp then
    let* e := isempty s rootp in
    if negb e then Some (s, 0)
    else
      let* s := link_together s nodep parentp rootp (Root rootp) in
      let* s := insert_fixup fuel s nodep rootp in Some (s, nodep)
  else
    let* pl := get left s parentp in
    if negb (isleaf pl) then Some (s, 0)
    else
      let* r := get root s parentp in
      let* s := link_together s nodep parentp r (Left parentp) in
      let* r := get root s nodep in
      let* s := insert_fixup fuel s nodep r in Some (s, nodep).
Definition insert_right_or_root (fuel : nat) (s : st) (nodep parentp rootp : Z) : option (st * Z) :=
  let* o := isorphan s nodep in
  if negb o then Some (s, 0)
  else if isleaf parentp then
    let* e := isempty s rootp in
    if negb e then Some (s, 0)
    else
      let* s := link_together s nodep parentp rootp (Root rootp) in
      let* s := insert_fixup fuel s nodep rootp in Some (s, nodep)
  else
    let* pr := get right s parentp in
    if negb (isleaf pr) then Some (s, 0)
    else
      let* r := get root s parentp in
      let* s := link_together s nodep parentp r (Right parentp) in
      let* r := get root s nodep in
      let* s := insert_fixup fuel s nodep r in Some (s, nodep).

(** tree.h:505-532: insert_root, insert_left, insert_right. *)
Definition insert_root (fuel : nat) (s : st) (nodep rootp : Z) := insert_left_or_root fuel s nodep 0 rootp.
Definition insert_left (fuel : nat) (s : st) (nodep parentp : Z) :=
  let* r := get root s parentp in insert_left_or_root fuel s nodep parentp r.
Definition insert_right (fuel : nat) (s : st) (nodep parentp : Z) :=
  let* r := get root s parentp in insert_right_or_root fuel s nodep parentp r.

(** The loops that go down to the left (tree.c:355-357, 500-502, 539-541) and to the
    right (521-523, 552-554). *)
Fixpoint leftmost (fuel : nat) (s : st) (nodep : Z) : option Z :=
  match fuel with
  | O => None
  | S fuel => let* l := get left s nodep in if isleaf l then Some nodep else leftmost fuel s l
  end.
Fixpoint rightmost (fuel : nat) (s : st) (nodep : Z) : option Z :=
  match fuel with
  | O => None
  | S fuel => let* r := get right s nodep in if isleaf r then Some nodep else rightmost fuel s r
  end.

(** tree.c:344-414, the part of diminuto_tree_remove that takes the node out: the
    child, its parent and the colour that is missing. *)
Definition take_out (fuel : nat) (s : st) (nodep rootp : Z) : option (st * Z * Z * bool) :=
  let* l := get left s nodep in
  let* r := get right s nodep in
  let one (childp : Z) :=
    let* parentp := get parent s nodep in
    let* color := get color s nodep in
    let* s := if negb (isleaf childp) then set_parent s childp parentp else Some s in
    let* s :=
      if isleaf parentp then store_root s rootp childp
      else let* pl := get left s parentp in
        if pl =? nodep then set_left s parentp childp
        else let* pr := get right s parentp in
          if pr =? nodep then set_right s parentp childp else set_error s nodep in
    Some (s, childp, parentp, color) in
  if isleaf l then one r
  else if isleaf r then one l
  else
    let oldp := nodep in
    let* nodep := leftmost fuel s r in
    let* childp := get right s nodep in
    let* parentp := get parent s nodep in
    let* color := get color s nodep in
    let* s := if negb (isleaf childp) then set_parent s childp parentp else Some s in
    let* '(s, parentp) :=
      if parentp =? oldp then let* s := set_right s parentp childp in Some (s, nodep)
      else let* s := set_left s parentp childp in Some (s, parentp) in
    let* old := nodes s oldp in
    let* s := change (fun n => Node (parent old) (left old) (right old) (root old) (TreeModel.color old) (error n) (pay n)) s nodep in
    let* op := get parent s oldp in
    let* s :=
      if isleaf op then store_root s rootp nodep
      else let* opl := get left s op in
        if opl =? oldp then set_left s op nodep
        else let* opr := get right s op in
          if opr =? oldp then set_right s op nodep else set_error s nodep in
    let* ol := get left s oldp in
    let* s := set_parent s ol nodep in
    let* or := get right s oldp in
    let* s := if negb (isleaf or) then set_parent s or nodep else Some s in
    Some (s, childp, parentp, color).

(** tree.c:325-432 diminuto_tree_remove. *)
Definition remove (fuel : nat) (s : st) (nodep : Z) : option (st * Z) :=
  if isleaf nodep then Some (s, 0)
  else
    let* o := isorphan s nodep in
    if o then Some (s, 0)
    else
      let gonep := nodep in
      let* rootp := get root s nodep in
      let* '(s, childp, parentp, color) := take_out fuel s nodep rootp in
      let* s := if Bool.eqb color BLACK then remove_fixup fuel s childp parentp rootp else Some s in
      let* s := init s gonep in
      Some (s, gonep).

(** tree.c:434-486 diminuto_tree_replace. *)
Definition replace (s : st) (oldp newp : Z) : option (st * Z) :=
  let* oo := isorphan s oldp in
  if oo then Some (s, 0)
  else
    let* no := isorphan s newp in
    if negb no then Some (s, 0)
    else
      let* parentp := get parent s oldp in
      let* s :=
        if isleaf parentp then let* r := get root s oldp in store_root s r newp
        else let* pl := get left s parentp in
          if oldp =? pl then set_left s parentp newp
          else let* pr := get right s parentp in
            if oldp =? pr then set_right s parentp newp else set_error s oldp in
      let* ol := get left s oldp in
      let* s := if negb (isleaf ol) then set_parent s ol newp else Some s in
      let* or := get right s oldp in
      let* s := if negb (isleaf or) then set_parent s or newp else Some s in
      let* old := nodes s oldp in
      let* s := change (fun n => Node (parent old) (left old) (right old) (root old) (color old) (error n) (pay n)) s newp in
      let* s := init s oldp in
      Some (s, oldp).

(** The loops that go up (tree.c:505-507, 526-528). *)
Fixpoint climb_right (fuel : nat) (s : st) (nodep : Z) : option Z :=
  match fuel with
  | O => None
  | S fuel =>
    let* parentp := get parent s nodep in
    if isleaf parentp then Some parentp
    else let* pr := get right s parentp in
      if nodep =? pr then climb_right fuel s parentp else Some parentp
  end.
Fixpoint climb_left (fuel : nat) (s : st) (nodep : Z) : option Z :=
  match fuel with
  | O => None
  | S fuel =>
    let* parentp := get parent s nodep in
    if isleaf parentp then Some parentp
    else let* pl := get left s parentp in
      if nodep =? pl then climb_left fuel s parentp else Some parentp
  end.

(** tree.c:492-511 diminuto_tree_next, 513-532 diminuto_tree_prev, 534-545
    diminuto_tree_first, 547-558 diminuto_tree_last. *)
Definition next (fuel : nat) (s : st) (nodep : Z) : option Z :=
  let* o := isorphan s nodep in
  if o then Some 0
  else let* r := get right s nodep in
    if negb (isleaf r) then leftmost fuel s r else climb_right fuel s nodep.
Definition prev (fuel : nat) (s : st) (nodep : Z) : option Z :=
  let* o := isorphan s nodep in
  if o then Some 0
  else let* l := get left s nodep in
    if negb (isleaf l) then rightmost fuel s l else climb_left fuel s nodep.
Definition first (fuel : nat) (s : st) (rootp : Z) : option Z :=
  let* nodep := load_root s rootp in
  if negb (isleaf nodep) then leftmost fuel s nodep else Some nodep.
Definition last (fuel : nat) (s : st) (rootp : Z) : option Z :=
  let* nodep := load_root s rootp in
  if negb (isleaf nodep) then rightmost fuel s nodep else Some nodep.

(** tree.c:564-584 diminuto_tree_search. The comparator of the application sees the
    payloads of the two nodes. The second result is what is stored in the variable at
    rcp, if anything; it holds [rc] before. *)
Fixpoint search (fuel : nat) (s : st) (nodep targetp : Z) (cmp : payload -> payload -> Z) (rc : Z) : option (Z * Z) :=
  match fuel with
  | O => None
  | S fuel =>
    if isleaf nodep then Some (nodep, rc)
    else
      let* a := get pay s nodep in
      let* b := get pay s targetp in
      let rc := cmp a b in
      if rc <? 0 then
        let* r := get right s nodep in
        if negb (isleaf r) then search fuel s r targetp cmp rc else Some (nodep, rc)
      else if 0 <? rc then
        let* l := get left s nodep in
        if negb (isleaf l) then search fuel s l targetp cmp rc else Some (nodep, rc)
      else Some (nodep, rc)
  end.

(** tree.c:586-607 diminuto_tree_search_insert_or_replace; store.h:244-247. (rc is not
    initialized, and is used only if the search stored in it.) *)
Definition search_insert_or_replace (fuel : nat) (s : st) (rootp targetp : Z) (cmp : payload -> payload -> Z) (rep : bool)
    : option (st * Z) :=
  let* r := load_root s rootp in
  let* '(parentp, rc) := search fuel s r targetp cmp 0 in
  if parentp =? 0 then insert_root fuel s targetp rootp
  else if rc <? 0 then insert_right fuel s targetp parentp
  else if 0 <? rc then insert_left fuel s targetp parentp
  else if rep then replace s parentp targetp
  else Some (s, 0).

(** store.h:208-230 diminuto_store_find_close from the root, diminuto_store_find. *)
Definition find_close (fuel : nat) (s : st) (rootp targetp : Z) (cmp : payload -> payload -> Z) : option (Z * Z) :=
  let* r := load_root s rootp in search fuel s r targetp cmp 0.
Definition find (fuel : nat) (s : st) (rootp targetp : Z) (cmp : payload -> payload -> Z) : option Z :=
  let* '(candidatep, rc) := find_close fuel s rootp targetp cmp in
  Some (if rc =? 0 then candidatep else 0).

(** tree.c:622-730 audit: the node at fault and the variable at heightp. (The heights,
    of type int, are no larger than the number of nodes on a path.) *)
Fixpoint audit_from (fuel : nat) (s : st) (nodep parentp rootp height heightp : Z) : option (Z * Z) :=
  match fuel with
  | O => None
  | S fuel =>
    if isleaf nodep then Some (0, heightp)
    else
      let* n := nodes s nodep in
      if negb (root n =? rootp) then Some (nodep, heightp)
      else if negb (parent n =? parentp) then Some (nodep, heightp)
      else
      let* r := load_root s rootp in
      if (r =? nodep) && negb (isleaf parentp) then Some (nodep, heightp)
      else if isleaf parentp && negb (r =? nodep) then Some (nodep, heightp)
      else if isleaf parentp && negb (Bool.eqb (color n) BLACK) then Some (nodep, heightp)
      else
      let* misplaced :=
        if isleaf parentp then Some false
        else let* pl := get left s parentp in
          if pl =? nodep then Some false
          else let* pr := get right s parentp in Some (negb (pr =? nodep)) in
      if misplaced then Some (nodep, heightp)
      else if error n then Some (nodep, heightp)
      else if negb (Bool.eqb (color n) RED) && negb (Bool.eqb (color n) BLACK) then Some (nodep, heightp)
      else
      let height := if Bool.eqb (color n) BLACK then height + 1 else height in
      let* '(result, heightp) :=
        if negb (isleaf (left n)) then
          let* lb := isblack s (left n) in
          if Bool.eqb (color n) RED && negb lb then Some (nodep, heightp)
          else audit_from fuel s (left n) nodep rootp height heightp
        else Some (0, heightp) in
      if negb (result =? 0) then Some (result, heightp)
      else
      let* '(result, heightp) :=
        if negb (isleaf (right n)) then
          let* rb := isblack s (right n) in
          if Bool.eqb (color n) RED && negb rb then Some (nodep, heightp)
          else audit_from fuel s (right n) nodep rootp height heightp
        else Some (0, heightp) in
      if negb (result =? 0) then Some (result, heightp)
      else if negb (isleaf (left n)) || negb (isleaf (right n)) then Some (0, heightp)
      else if heightp <? 0 then Some (0, height)
      else if heightp =? height then Some (0, heightp)
      else Some (nodep, heightp)
  end.

(** tree.c:732-736 diminuto_tree_audit. *)
Definition audit (fuel : nat) (s : st) (rootp : Z) : option Z :=
  let* r := load_root s rootp in
  let* '(result, _) := audit_from fuel s r 0 rootp 0 (-1) in Some result.

(** The public calls, and a store by the application into the payload of a node. *)
Inductive op :=
  | Insert (rootp targetp : Z) (rep : bool)           (* search_insert_or_replace *)
  | InsertLeft (nodep parentp rootp : Z)              (* insert_left_or_root *)
  | InsertRight (nodep parentp rootp : Z)             (* insert_right_or_root *)
  | Remove (nodep : Z)
  | Replace (oldp newp : Z)
  | Find (rootp targetp : Z)
  | First (rootp : Z)
  | Last (rootp : Z)
  | Next (nodep : Z)
  | Prev (nodep : Z)
  | Audit (rootp : Z)
  | IsEmpty (rootp : Z)
  | Init (nodep : Z)
  | Store (nodep : Z) (v : payload).

(** A call and its result, zero if it has none. *)
Definition step (cmp : payload -> payload -> Z) (fuel : nat) (s : st) (o : op) : option (st * Z) :=
  match o with
  | Insert rootp targetp rep => search_insert_or_replace fuel s rootp targetp cmp rep
  | InsertLeft nodep parentp rootp => insert_left_or_root fuel s nodep parentp rootp
  | InsertRight nodep parentp rootp => insert_right_or_root fuel s nodep parentp rootp
  | Remove nodep => remove fuel s nodep
  | Replace oldp newp => replace s oldp newp
  | Find rootp targetp => let* r := find fuel s rootp targetp cmp in Some (s, r)
  | First rootp => let* r := first fuel s rootp in Some (s, r)
  | Last rootp => let* r := last fuel s rootp in Some (s, r)
  | Next nodep => let* r := next fuel s nodep in Some (s, r)
  | Prev nodep => let* r := prev fuel s nodep in Some (s, r)
  | Audit rootp => let* r := audit fuel s rootp in Some (s, r)
  | IsEmpty rootp => let* e := isempty s rootp in Some (s, if e then 1 else 0)
  | Init nodep => let* s := init s nodep in Some (s, 0)
  | Store nodep v => let* s := change (with_pay v) s nodep in Some (s, 0)
  end.

(** The beginning: nodes as DIMINUTO_TREE_DATAINIT (tree.h:140) makes them, and empty
    trees. *)
Definition start (valid : Z -> bool) (pays : Z -> payload) : st :=
  St (fun p => if negb (p =? 0) && valid p then Some (Node 0 0 0 0 RED false (pays p)) else None) (fun _ => 0).

(** src/diminuto_comparator.c:17-20 diminuto_compare_strings, which is strcmp: strings
    without their terminators, the difference of the first octets that differ. *)
Fixpoint compare_strings (a b : list Z) : Z :=
  match a, b with
  | [], [] => 0
  | [], y :: _ => 0 - y
  | x :: _, [] => x
  | x :: a, y :: b => if x =? y then compare_strings a b else x - y
  end.
(** src/diminuto_comparator.c:22-25 diminuto_compare_pointers: a difference of type
    intptr_t, undefined if it overflows, converted to int. *)
Definition compare_pointers (a b : Z) : option Z := let* d := ck_s64 (a - b) in Some (s32 d).
