(** Model of diminuto_meter.c. Ticks and sizes are 64-bit unsigned integers. The doubles
    that occur are never NaN and are only compared, so that a double is modelled by its
    place in their order: zero by 0, HUGE_VAL by [huge], and the quotient
    events * frequency / interval by [rate events interval]. All three are arbitrary
    but for what the theorems state. *)

From Coq Require Import ZArith List Bool.
From Verif Require Import CInt.
Import ListNotations.
Local Open Scope Z_scope.

(** diminuto_meter_t, inc/com/diag/diminuto/diminuto_meter.h:63-70. *)
Record meter := mkmeter { start : Z; last : Z; peak : Z; events : Z; burst : Z; count : Z }.

(** What a call returns: 0, or -1 with errno ERANGE or EOVERFLOW. *)
Inductive result := Success | Range | Overflow.

(** DIMINUTO_METER_OVERFLOW, inc/com/diag/diminuto/diminuto_meter.h:32. *)
Definition OVERFLOW : Z := 18446744073709551615.

(** diminuto_meter_reset(), src/diminuto_meter.c:17-27. *)
Definition reset (now : Z) : meter := mkmeter now now 0 0 0 0.

Section doubles.
  Variables (huge : Z) (rate : Z -> Z -> Z).

  (** diminuto_meter_events(), src/diminuto_meter.c:29-80. *)
  Definition add_events (m : meter) (now ev : Z) : meter * result :=
    if now <? last m then (m, Range)
    else if ev =? 0 then (mkmeter (start m) now (peak m) (events m) (burst m) (count m), Success)
    else if count m =? 0 then (mkmeter (start m) now (peak m) ev ev 1, Success)
    else if u64 (OVERFLOW - count m) <? 1 then
      (mkmeter (start m) now (peak m) (events m) (burst m) OVERFLOW, Overflow)
    else if u64 (OVERFLOW - events m) <? ev then
      (mkmeter (start m) now (peak m) OVERFLOW (burst m) (count m), Overflow)
    else if now =? last m then
      (mkmeter (start m) now huge (u64 (events m + ev)) (if burst m <? ev then ev else burst m) (u64 (count m + 1)), Success)
    else
      let r := rate ev (u64 (now - last m)) in
      (mkmeter (start m) now (if peak m <? r then r else peak m) (u64 (events m + ev))
         (if burst m <? ev then ev else burst m) (u64 (count m + 1)), Success).

  (** diminuto_meter_sustained(), src/diminuto_meter.c:82-97. *)
  Definition sustained (m : meter) : Z :=
    if events m =? 0 then 0
    else if last m <=? start m then huge
    else rate (events m) (u64 (last m - start m)).

  (** A history of calls: the meter and what each returned. *)
  Fixpoint calls (m : meter) (h : list (Z * Z)) : meter * list result :=
    match h with
    | [] => (m, [])
    | (now, ev) :: h =>
        let '(m, r) := add_events m now ev in
        let '(m, rs) := calls m h in
        (m, r :: rs)
    end.
End doubles.

(** diminuto_meter_interval(), inc/com/diag/diminuto/diminuto_meter.h:203-206. *)
Definition interval (m : meter) : Z := u64 (last m - start m).
