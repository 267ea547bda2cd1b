(** Specification of the environment functions: everything is told from what can be seen. *)

From Coq Require Import ZArith List Bool.
From Verif Require Import ReaderwriterModel ReaderwriterSpec EnvironmentModel.
Import ListNotations.
Local Open Scope Z_scope.

(** What a thread may do next. There are fewer than 2147483647 threads that use the lock. *)
Definition may {E} (tr : list event) (s : sys E) (m : move) : Prop :=
  match m with
  | Call t _ _ => thread s t = Idle /\
      Z.of_nat (length (readers tr)) + Z.of_nat (length (granted tr)) + Z.of_nat (length (pending tr)) < LIMIT
  | Resume t _ => exists o, thread s t = Waiting o
  | Enter t => exists o, thread s t = Holds o
  | Exit t => exists o, thread s t = Inside o
  | Return t => exists o r, thread s t = Leaving o r
  end.

(** Executions, any interleaving: what happened to the lock, what can be seen, and the
    state. *)
Inductive execution {E} (getenv_ : list Z -> E -> Z) (modify : op -> E -> E * Z) (e0 : E) :
    list event -> list note -> sys E -> Prop :=
  | E_start : execution getenv_ modify e0 [] [] (Sys init e0 (fun _ => Idle) [])
  | E_step tr h s m s' es n :
      execution getenv_ modify e0 tr h s -> may tr s m -> estep getenv_ modify s m = Some (s', es, n) ->
      execution getenv_ modify e0 (tr ++ es) (h ++ n) s'.

(** The functions used one at a time, in the order in which they took effect: the
    environment at the end, if each returned what it then returns. *)
Fixpoint sequential {E} (getenv_ : list Z -> E -> Z) (modify : op -> E -> E * Z) (e : E) (h : list note) : option E :=
  match h with
  | [] => Some e
  | Effect _ (Get n) result :: h => if result =? getenv_ n e then sequential getenv_ modify e h else None
  | Effect _ o result :: h => if result =? snd (modify o e) then sequential getenv_ modify (fst (modify o e)) h else None
  | _ :: h => sequential getenv_ modify e h
  end.

(** What one thread sees: it calls, its call takes effect once, it returns what that gave; or
    it calls and returns with a failure, with no effect. *)
Inductive seen := Out | In_ (o : op) | Done (o : op) (result : Z).
Definition fails (o : op) (result : Z) : Prop := match o with Get _ => result = 0 | _ => result = -1 end.
Inductive sees (t : Z) : list note -> seen -> Prop :=
  | S_start : sees t [] Out
  | S_other h x n : sees t h x -> (match n with Called u _ | Effect u _ _ | Returned u _ _ => u <> t end) -> sees t (h ++ [n]) x
  | S_call h o : sees t h Out -> sees t (h ++ [Called t o]) (In_ o)
  | S_effect h o r : sees t h (In_ o) -> sees t (h ++ [Effect t o r]) (Done o r)
  | S_return h o r : sees t h (Done o r) -> sees t (h ++ [Returned t o r]) Out
  | S_fail h o r : sees t h (In_ o) -> fails o r -> sees t (h ++ [Returned t o r]) Out.

(** Executions one can compute, for the examples. *)
Definition may_b {E} (tr : list event) (s : sys E) (m : move) : bool :=
  match m with
  | Call t _ _ => (match thread s t with Idle => true | _ => false end) &&
      (Z.of_nat (length (readers tr)) + Z.of_nat (length (granted tr)) + Z.of_nat (length (pending tr)) <? LIMIT)
  | Resume t _ => match thread s t with Waiting _ => true | _ => false end
  | Enter t => match thread s t with Holds _ => true | _ => false end
  | Exit t => match thread s t with Inside _ => true | _ => false end
  | Return t => match thread s t with Leaving _ _ => true | _ => false end
  end.
Fixpoint eplay {E} (getenv_ : list Z -> E -> Z) (modify : op -> E -> E * Z) (tr : list event) (h : list note) (s : sys E) (l : list move)
    : option (list event * list note * sys E) :=
  match l with
  | [] => Some (tr, h, s)
  | m :: l =>
      if may_b tr s m then
        match estep getenv_ modify s m with
        | Some (s', es, n) => eplay getenv_ modify (tr ++ es) (h ++ n) s' l
        | None => None
        end
      else None
  end.
