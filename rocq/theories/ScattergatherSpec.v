(** What records and segments are to a client: sequences, and no links, no buffers. *)

From Coq Require Import ZArith List Bool Arith.
From Verif Require Import CUtil ScattergatherModel.
Import ListNotations.
Local Open Scope nat_scope.

(** The data of a segment: its length, and the whole of its payload field. *)
Record content := Content { length_of : Z; field : list Z }.
(** The nodes in the pool, in the order they will be given out; the other nodes: each
    record followed by its segments in order, and each segment that is not on a record by
    itself; and which nodes are segments, with what data. *)
Record ref := Ref { pool : list nat; lists : list (list nat); segment : nat -> option content }.
Definition r_start (sa : list nat) : ref := Ref sa [] (fun _ => None).

Definition has (x : nat) (l : list nat) : bool := existsb (Nat.eqb x) l.
Definition is_segment (r : ref) (x : nat) : bool := match segment r x with Some _ => true | None => false end.
Definition is_record (r : ref) (x : nat) : bool := existsb (fun l => hd 0 l =? x) (lists r) && negb (is_segment r x).
(** A segment by itself, and a segment of a record. *)
Definition loose (r : ref) (x : nat) : bool := is_segment r x && existsb (fun l => hd 0 l =? x) (lists r).
Definition onrecord (r : ref) (x : nat) : bool := is_segment r x && existsb (fun l => has x (tl l)) (lists r).
(** The segments of a record. *)
Definition parts (r : ref) (x : nat) : list nat := tl (match find (fun l => hd 0 l =? x) (lists r) with Some l => l | None => [] end).
(** The record, or the segment by itself, that a segment belongs to, with all of it. *)
Definition whole (r : ref) (x : nat) : list nat := match find (has x) (lists r) with Some l => l | None => [] end.

(** Without a node, wherever it is. *)
Definition drop (x : nat) (ls : list (list nat)) : list (list nat) :=
  filter (fun l => match l with [] => false | _ => true end) (map (filter (fun y => negb (y =? x))) ls).
Definition at_record (x : nat) (f : list nat -> list nat) (ls : list (list nat)) : list (list nat) :=
  map (fun l => if hd 0 l =? x then x :: f (tl l) else l) ls.
Definition after (p x : nat) (l : list nat) : list nat := flat_map (fun y => if y =? p then [y; x] else [y]) l.
Definition instead (p x : nat) (l : list nat) : list nat := map (fun y => if y =? p then x else y) l.
Definition set (f : nat -> option content) (x : nat) (v : option content) : nat -> option content := fun y => if y =? x then v else f y.
Definition clear (f : nat -> option content) (xs : list nat) : nat -> option content := fun y => if has y xs then None else f y.

(** The data of a segment as a client sees it. *)
Definition octets_of (r : ref) (x : nat) : list Z :=
  match segment r x with Some c => firstn (Z.to_nat (length_of c)) (field c) | None => [] end.
(** The whole message that a record is. *)
Definition message (r : ref) (x : nat) : list Z := flat_map (octets_of r) (parts r x).
(** Octets go to the segments in order, to each as many as its length. *)
Fixpoint fill (f : nat -> option content) (xs : list nat) (bs : list Z) : nat -> option content :=
  match xs with
  | [] => f
  | x :: xs =>
      match f x with
      | None => f
      | Some c =>
          let k := min (Z.to_nat (length_of c)) (length bs) in
          fill (set f x (Some (Content (length_of c) (firstn k bs ++ skipn k (field c))))) xs (skipn k bs)
      end
  end.
(** The number before or after a member of a list. *)
Fixpoint follower (x : nat) (l : list nat) : nat :=
  match l with y :: (z :: _) as t => if y =? x then z else follower x t | _ => 0 end.

(** What each operation does, or None if it may not be called: an operation is given
    records and segments where it asks for them; a segment to insert or to put instead of
    another is by itself; the last segment of a record is not appended to it again; the
    length of a segment does not go beyond its field; a record to be sent or received has
    from one to 1024 segments; and a system call moves no more than it is asked for. *)
Definition limits (r : ref) (x : nat) : bool := (1 <=? length (parts r x)) && (length (parts r x) <=? 1024).
Definition fits (r : ref) (x : nat) (input : option (list Z)) : bool :=
  match input with None => true | Some bs => length bs <=? length (message r x) end.
Definition when {A} (b : bool) (a : A) : option A := if b then Some a else None.
Definition r_perform (r : ref) (c : call) : option (ref * result) :=
  match c with
  | RecordAllocate =>
      match pool r with [] => Some (r, Pointer 0) | x :: p => Some (Ref p ([x] :: lists r) (segment r), Pointer x) end
  | SegmentAllocate size block =>
      match block with
      | None => when (Z.leb 0 size && Z.leb (size + 8) 18446744073709551615) (r, Pointer 0)
      | Some bs =>
          let* _ := when (Z.leb 0 size && Z.leb (size + 8) 18446744073709551615 && Z.eqb (Z.of_nat (length bs)) size) tt in
          match pool r with
          | [] => Some (r, Pointer 0)
          | x :: p => Some (Ref p ([x] :: lists r) (set (segment r) x (Some (Content size bs))), Pointer x)
          end
      end
  | SegmentFree x | RecordSegmentFree x => when (is_segment r x) (Ref (pool r ++ [x]) (drop x (lists r)) (set (segment r) x None), Nothing)
  | RecordSegmentsFree x =>
      when (is_record r x) (Ref (pool r ++ parts r x) (at_record x (fun _ => []) (lists r)) (clear (segment r) (parts r x)), Nothing)
  | RecordFree x =>
      when (is_record r x) (Ref (pool r ++ parts r x ++ [x]) (drop x (at_record x (fun _ => []) (lists r))) (clear (segment r) (parts r x)), Nothing)
  | Prepend x s => when (is_record r x && is_segment r s) (Ref (pool r) (at_record x (fun l => s :: l) (drop s (lists r))) (segment r), Nothing)
  | Append x s =>
      when (is_record r x && is_segment r s && negb (last (parts r x) 0 =? s)) (Ref (pool r) (at_record x (fun l => l ++ [s]) (drop s (lists r))) (segment r), Nothing)
  | InsertAfter p s => when (onrecord r p && loose r s) (Ref (pool r) (map (after p s) (drop s (lists r))) (segment r), Nothing)
  | ReplaceWith p s => when (onrecord r p && loose r s) (Ref (pool r) ([p] :: map (instead p s) (drop s (lists r))) (segment r), Nothing)
  | SegmentRemove s => when (is_segment r s) (Ref (pool r) ([s] :: drop s (lists r)) (segment r), Nothing)
  | LengthGet s => let* c := segment r s in Some (r, Number (length_of c))
  | LengthSet s n => let* c := segment r s in
      when (Z.leb 0 n && Z.leb n (Z.of_nat (length (field c)))) (Ref (pool r) (lists r) (set (segment r) s (Some (Content n (field c)))), Nothing)
  | Store s bs => let* c := segment r s in
      when (length bs <=? length (field c)) (Ref (pool r) (lists r) (set (segment r) s (Some (Content (length_of c) (bs ++ skipn (length bs) (field c))))), Nothing)
  | Load s => when (is_segment r s) (r, Octets (octets_of r s))
  | Head x => when (is_record r x) (r, Pointer (hd 0 (parts r x)))
  | Tail x => when (is_record r x) (r, Pointer (last (parts r x) 0))
  | Next s => when (is_segment r s) (r, Pointer (follower s (tl (whole r s))))
  | Previous s => when (is_segment r s) (r, Pointer (follower s (rev (tl (whole r s)))))
  | Enumerate x => when (is_record r x && (Z.of_nat (length (parts r x)) <? 18446744073709551616)%Z) (r, Number (Z.of_nat (length (parts r x))))
  | Measure x => when (is_record r x && (Z.of_nat (length (message r x)) <? 18446744073709551616)%Z) (r, Number (Z.of_nat (length (message r x))))
  | Vectorize x n => when (is_record r x && Z.leb 0 n) (r, Vector (when (Z.leb (Z.of_nat (length (parts r x))) n) (map (octets_of r) (parts r x))))
  | Write x n =>
      let* _ := when (is_record r x && (Z.of_nat (length (parts r x)) <? 18446744073709551616)%Z) tt in
      if limits r x then Some (r, Written n (firstn (Z.to_nat n) (message r x)))
      else Some (r, Written (-1) [])
  | Read x input =>
      let* _ := when (is_record r x && (Z.of_nat (length (parts r x)) <? 18446744073709551616)%Z && fits r x input) tt in
      match input with
      | Some bs => if limits r x then Some (Ref (pool r) (lists r) (fill (segment r) (parts r x) bs), Number (Z.of_nat (length bs))) else Some (r, Number (-1))
      | None => Some (r, Number (-1))
      end
  | Send x n => when (is_record r x && limits r x) (r, Written n (firstn (Z.to_nat n) (message r x)))
  | Receive x input =>
      let* _ := when (is_record r x && limits r x && fits r x input) tt in
      match input with
      | Some bs => Some (Ref (pool r) (lists r) (fill (segment r) (parts r x) bs), Number (Z.of_nat (length bs)))
      | None => Some (r, Number (-1))
      end
  end.
Fixpoint r_perform_all (r : ref) (cs : list call) : option (ref * list result) :=
  match cs with
  | [] => Some (r, [])
  | c :: cs => let* '(r, x) := r_perform r c in let* '(r, xs) := r_perform_all r cs in Some (r, x :: xs)
  end.

(** A pool of distinct nodes. The bound is on the iterations of loops, and no loop meets it. *)
Definition proper (fuel pp : nat) (sa : list nat) : Prop := NoDup (pp :: sa) /\ ~ In 0 (pp :: sa) /\ length sa < fuel.

