(** What a record, and a log, is to be. *)

From Coq Require Import ZArith List Bool.
From Verif Require Import CUtil.
Import ListNotations.
Local Open Scope Z_scope.

(** A text as one line of at most 8191 octets: a newline is added if there is none, and the
    end is cut off if there is no room for it. *)
Definition line (t : list Z) : list Z :=
  if Z.of_nat (length t) <=? 8190 then if last t 0 =? 10 then t else t ++ [10]
  else firstn (Z.to_nat 8190) t ++ [10].

Definition is_prefix (p l : list Z) : Prop := exists r, l = p ++ r.
Definition text (o : option (list Z)) : list Z := match o with Some t => t | None => [] end.

(** What has happened to a log: which thread wrote, what it was to write, and what of that
    it wrote. *)
Definition history : Type := list (nat * list Z * list Z).
Definition written (h : history) : list Z := concat (map snd h).
(** The records of one thread, in order. *)
Definition of_thread (i : nat) (h : history) : list (list Z) := map (fun e => snd (fst e)) (filter (fun e => Nat.eqb (fst (fst e)) i) h).

(** What ends a number in a line of a file: newline, space, tab, #. *)
Definition stops (rest : list Z) : Prop := rest = [] \/ In (hd 0 rest) [10; 32; 9; 35].
