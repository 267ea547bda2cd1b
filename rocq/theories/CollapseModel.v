(** Model of bin/collapse.c, and of diminuto_escape_collapse when it is used as there: from a
    buffer to the same buffer. Reads and writes beyond the buffer are [None]. The arguments
    are those after the name. Simplifications: messages; how many of the octets of each
    fwrite(3) are taken is an argument. *)

From Coq Require Import ZArith List Bool.
From Verif Require Import CUtil CInt EscapeModel.
Import ListNotations.
Local Open Scope Z_scope.

(** A store to the buffer. *)
Definition put (buf : list Z) (t : nat) (x : Z) : option (list Z) :=
  if Nat.ltb t (length buf) then Some (firstn t buf ++ x :: skipn (S t) buf) else None.
Definition put_any (buf : list Z) (t : nat) (l : list Z) : option (list Z) :=
  match l with
  | [] => Some buf
  | x :: _ => put buf t x
  end.

(** src/diminuto_escape.c:17-144 diminuto_escape_collapse where to is from: [r] is ff - from
    and [t] is tt - to. Each turn of the loop, 28-135, reads what it reads from the buffer as
    it is before it writes one octet or none. The buffer, and the value that is returned. *)
Fixpoint in_place (fuel : nat) (buf : list Z) (r t : nat) (tsize : Z) : option (list Z * nat) :=
  let finish := if 0 <? tsize then (let* buf := put buf t 0 in Some (buf, S t)) else Some (buf, t) in
  if 1 <? tsize then
    match skipn r buf, fuel with
    | c :: rest, S fuel =>
        if c =? 0 then finish
        else
          let* p := collapse_step c rest in
          let '(ff, out) := p in
          let* buf' := put_any buf t out in
          in_place fuel buf' (length buf - length ff) (t + length out) (tsize - Z.of_nat (length out))
    | _, _ => None
    end
  else finish.

(** bin/collapse.c:42-70 and 72, with the octets that each write takes: what is written, and
    the exit status. *)
Fixpoint collapse_main (args : list (list Z)) (takes : list nat) : option (list Z * Z) :=
  match args with
  | [] => Some ([], 0)
  | [] :: args' => collapse_main args' takes
  | arg :: args' =>
      let buffer := arg ++ [0] in
      let* p := in_place (length buffer) buffer 0 0 (Z.of_nat (length buffer)) in
      let '(buffer, size) := p in
      if (Z.of_nat size <? 1) || (nth 0 buffer 0 =? 0) then collapse_main args' takes
      else
        let size := (size - 1)%nat in
        let written := match takes with n :: _ => Nat.min n size | [] => size end in
        if negb (Nat.eqb written size) then Some (firstn written buffer, 1)
        else let* p := collapse_main args' (tl takes) in Some (firstn written buffer ++ fst p, snd p)
  end.
