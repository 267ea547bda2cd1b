(** Specification of a meter: what it should say of a history of (time, events). *)

From Coq Require Import ZArith List Bool.
From Verif Require Import MeterModel.
Import ListNotations.
Local Open Scope Z_scope.

(** The calls that are not before the last one accepted; the others do not count. *)
Fixpoint accepted (t : Z) (h : list (Z * Z)) : list (Z * Z) :=
  match h with
  | [] => []
  | (now, ev) :: h => if now <? t then accepted t h else (now, ev) :: accepted now h
  end.

Definition largest (l : list Z) : Z := fold_right Z.max 0 l.
Definition total (h : list (Z * Z)) : Z := fold_right Z.add 0 (map snd h).
Definition measurements (h : list (Z * Z)) : list Z := filter (fun e => negb (e =? 0)) (map snd h).
Definition latest (t : Z) (h : list (Z * Z)) : Z := List.last (map fst h) t.

(** The rates of the measurements after the first, each over the time since the call
    before it. *)
Section doubles.
  Variables (huge : Z) (rate : Z -> Z -> Z).
  Definition rate_over (dt ev : Z) : Z := if dt =? 0 then huge else rate ev dt.
  Fixpoint rates (seen : bool) (t : Z) (h : list (Z * Z)) : list Z :=
    match h with
    | [] => []
    | (now, ev) :: h =>
        if ev =? 0 then rates seen now h
        else if seen then rate_over (now - t) ev :: rates true now h
        else rates true now h
    end.
End doubles.

(** The largest number of events that can be told. *)
Definition most : Z := 2 ^ 64 - 1.

(** What each call should return, the events so far being [sum]. *)
Fixpoint answers (t sum : Z) (h : list (Z * Z)) : list result :=
  match h with
  | [] => []
  | (now, ev) :: h =>
      if now <? t then Range :: answers t sum h
      else (if (0 <? ev) && (most <? sum + ev) then Overflow else Success) :: answers now (sum + ev) h
  end.

(** Times and numbers of events are 64-bit numbers. *)
Definition sane (h : list (Z * Z)) : Prop := Forall (fun p => 0 <= fst p < 2 ^ 64 /\ 0 <= snd p < 2 ^ 64) h.
