(** Model of bin/elapsedsleep.c, bin/elapsedtime.c, bin/epochtime.c, bin/zulu.c and
    bin/juliet.c: the utilities that sleep and tell the time. Command line arguments are the
    octets before the NUL, without the name of the program. Undefined behaviour is [None].
    Simplifications: messages are left out; whether the sleep is interrupted is in DelayModel. *)

From Coq Require Import ZArith List Bool.
From Verif Require Import CInt CUtil NumberModel OptionModel TimeModel.
Import ListNotations.
Local Open Scope Z_scope.

(** What elapsedsleep does: it yields, or sleeps for some ticks. *)
Inductive action := Yield | Sleep (ticks : Z).

(** bin/elapsedsleep.c:44-56 and 59-71, bin/elapsedtime.c:42-54 and bin/epochtime.c:42-54: an
    optional argument, what it is if it is not there, and the smallest that is accepted; the
    result is [None] if it is refused. *)
Definition optional (arg : option (list Z)) (default least : Z) : option Z :=
  match arg with
  | None => Some default
  | Some a =>
      let '(v, rest) := strtoll a in
      if v <? least then None else match rest with [] => Some v | _ => None end
  end.

(** bin/elapsedsleep.c:36-82 main: the exit status and what was done. *)
Definition elapsedsleep (args : list (list Z)) : option (Z * list action) :=
  match optional (nth_error args 0) 0 0 with
  | None => Some (1, [])
  | Some delay =>
      match optional (nth_error args 1) 1 1 with
      | None => Some (1, [])
      | Some units =>
          let* ticks := if delay =? 0 then Some 0 else units2ticks delay units in
          Some (0, [if ticks <=? 0 then Yield else Sleep ticks])
      end
  end.

(** bin/elapsedtime.c:36-63 main and bin/epochtime.c:36-63 main, which are the same but for the
    clock: [gettime] is what clock_gettime(2) answers. The exit status, and the numbers that
    are printed. *)
Definition telltime (gettime : option (Z * Z)) (args : list (list Z)) : option (Z * list Z) :=
  match optional (nth_error args 0) 1 1 with
  | None => Some (1, [])
  | Some units =>
      let* ticks := time_generic gettime in
      if ticks =? 0 then Some (2, []) else let* n := ticks2units ticks units in Some (0, [n])
  end.

(** "%W.Wd" and "%W.Wllu" of printf(3), for numbers that are not negative. *)
Definition padded (width : nat) (n : Z) : list Z :=
  let d := utoa 20 n [] in repeat 48 (width - length d) ++ d.

(** bin/zulu.c:48 and bin/juliet.c:58: the date and the fraction. *)
Definition moment (d : date) (fraction : Z) : list Z :=
  padded 4 (year d) ++ [45] ++ padded 2 (month d) ++ [45] ++ padded 2 (day d) ++ [84] ++
  padded 2 (hour d) ++ [58] ++ padded 2 (minute d) ++ [58] ++ padded 2 (second d) ++ [46] ++ padded 9 fraction.

(** bin/zulu.c:29-51 main. *)
Definition zulu_main (gettime : option (Z * Z)) (gmtime : Z -> option date) : option (Z * list Z) :=
  let* ticks := time_generic gettime in
  if ticks <? 0 then Some (2, [])
  else
    let* r := zulu gmtime ticks in
    match r with
    | None => Some (3, [])
    | Some (d, fraction) => Some (0, moment d fraction ++ [43; 48; 48; 58; 48; 48; 10])
    end.

(** bin/juliet.c:30-61 main; [offset] is the time zone and the daylight saving time together,
    lines 48-52. *)
Definition juliet_main (gettime : option (Z * Z)) (localtime : Z -> option date) (offset : Z) : option (Z * list Z) :=
  let* ticks := time_generic gettime in
  if ticks <? 0 then Some (2, [])
  else
    let* w := ticks2wholeseconds offset in
    let* s := if s32 w <? 0 then ck_s32 (- s32 w) else Some (s32 w) in
    let* r := zulu localtime ticks in
    match r with
    | None => Some (3, [])
    | Some (d, fraction) =>
        Some (0, moment d fraction ++ [if offset <? 0 then 45 else 43] ++ padded 2 (Z.quot s 3600) ++ [58] ++ padded 2 (Z.rem s 3600) ++ [10])
    end.
