(** Model of diminuto_frequency.h and diminuto_time.c. [None] is undefined
    behaviour: signed overflow or division by zero. The C operators / and % truncate
    towards zero: Z.quot and Z.rem. *)

From Coq Require Import ZArith List Bool.
From Verif Require Import CInt CUtil.
Import ListNotations.
Local Open Scope Z_scope.

Definition div64 (x y : Z) : option Z := if y =? 0 then None else ck_s64 (Z.quot x y).
(** x % y is undefined when x / y is. *)
Definition rem64 (x y : Z) : option Z :=
  if y =? 0 then None else match ck_s64 (Z.quot x y) with None => None | Some _ => Some (Z.rem x y) end.
Definition mul64 (x y : Z) : option Z := ck_s64 (x * y).
Definition add64 (x y : Z) : option Z := ck_s64 (x + y).
Definition sub64 (x y : Z) : option Z := ck_s64 (x - y).

(** inc/com/diag/diminuto/diminuto_frequency.h:74-84. *)
Definition frequency : Z := 1000000000.

(** inc diminuto_frequency.h:100-108 diminuto_frequency_ticks2units. *)
Definition ticks2units (ticks hertz : Z) : option Z :=
  if hertz >? frequency then let* f := div64 hertz frequency in mul64 ticks f
  else if hertz <? frequency then let* f := div64 frequency hertz in div64 ticks f
  else Some ticks.

(** inc diminuto_frequency.h:116-125 diminuto_frequency_units2ticks. *)
Definition units2ticks (units hertz : Z) : option Z :=
  if hertz >? frequency then let* f := div64 hertz frequency in div64 units f
  else if hertz <? frequency then let* f := div64 frequency hertz in mul64 units f
  else Some units.

(** inc diminuto_frequency.h:132-135 diminuto_frequency_ticks2wholeseconds. *)
Definition ticks2wholeseconds (ticks : Z) : option Z := ticks2units ticks 1.

(** inc diminuto_frequency.h:144-147 diminuto_frequency_ticks2fractionalseconds. *)
Definition ticks2fractionalseconds (ticks hertz : Z) : option Z :=
  let* r := rem64 ticks frequency in ticks2units r hertz.

(** inc diminuto_frequency.h:157-160 diminuto_frequency_seconds2ticks. *)
Definition seconds2ticks (whole fraction hertz : Z) : option Z :=
  let* a := units2ticks whole 1 in let* b := units2ticks fraction hertz in add64 a b.

(** inc diminuto_frequency.h:168-172 diminuto_frequency_roundup. *)
Definition roundup (ticks hertz : Z) : option Z :=
  let* remainder := rem64 ticks hertz in
  if remainder =? 0 then Some ticks
  else let* base := sub64 ticks remainder in
       let* h := (if ticks <? 0 then ck_s64 (- hertz) else Some hertz) in add64 base h.

(** inc diminuto_frequency.h:180-184 diminuto_frequency_rounddown. *)
Definition rounddown (ticks hertz : Z) : option Z :=
  let* remainder := rem64 ticks hertz in
  if remainder =? 0 then Some ticks else sub64 ticks remainder.

(** inc diminuto_time.h:86: DIMINUTO_TIME_ERROR, the smallest 64 bit value. *)
Definition TIME_ERROR : Z := -9223372036854775808.

(** src/diminuto_time.c:35-49 diminuto_time_generic: [gettime] is the result of
    clock_gettime, seconds and nanoseconds, or a failure. The log message is not
    modelled. *)
Definition time_generic (gettime : option (Z * Z)) : option Z :=
  match gettime with
  | Some (sec, nsec) => seconds2ticks sec nsec 1000000000
  | None => Some TIME_ERROR
  end.

(** inc diminuto_absolute.h:22-26 abs64. *)
Definition abs64 (x : Z) : option Z := if x <? 0 then ck_s64 (- x) else Some x.

(** src/diminuto_time.c:261-284 diminuto_time_separate: whole seconds (time_t has 64
    bits) and the fraction. *)
Definition separate (ticks : Z) : option (Z * Z) :=
  let* seconds := ticks2wholeseconds ticks in
  let* a := abs64 ticks in
  let* fraction := ticks2fractionalseconds a frequency in
  let fraction := u64 fraction in
  if ticks >=? 0 then Some (seconds, fraction)
  else if fraction =? 0 then Some (seconds, fraction)
  else let* seconds := sub64 seconds 1 in Some (seconds, u64 (frequency - fraction)).

(** A broken down time: year, month, day, hour, minute, second. *)
Record date := Date { year : Z; month : Z; day : Z; hour : Z; minute : Z; second : Z }.

(** src/diminuto_time.c:298-307 diminuto_time_extract: year and month of struct tm
    are counted from 1900 and 0. *)
Definition extract (tm : date) : option date :=
  let* y := ck_s32 (year tm + 1900) in
  let* m := ck_s32 (month tm + 1) in
  Some (Date y m (day tm) (hour tm) (minute tm) (second tm)).

(** src/diminuto_time.c:324-346 diminuto_time_zulu_generic, and 358-378
    diminuto_time_juliet, which calls localtime_r instead: [gmtime] is the library
    function, which can fail. The result is the date and the fraction, or (the inner
    [None]) a return code of -1. *)
Definition zulu (gmtime : Z -> option date) (ticks : Z) : option (option (date * Z)) :=
  let* '(seconds, fraction) := separate ticks in
  match gmtime seconds with
  | None => Some None
  | Some tm => let* d := extract tm in Some (Some (d, fraction))
  end.

(** src/diminuto_time.c:150-248 diminuto_time_epoch: [timegm] is the library
    function, giving the seconds and errno. *)
Definition epoch (timegm : date -> Z * Z) (d : date) (tick timezone daylightsaving : Z) : option Z :=
  let* y := ck_s32 (year d - 1900) in
  let* m := ck_s32 (month d - 1) in
  let '(seconds, errno) := timegm (Date y m (day d) (hour d) (minute d) (second d)) in
  if (seconds =? -1) && negb (errno =? 0) then Some TIME_ERROR
  else
    let* ticks := seconds2ticks seconds 0 1 in
    if (seconds =? -1) &&
       negb ((year d =? 1969) && (month d =? 12) && (day d =? 31) && (hour d =? 23) && (minute d =? 59) && (second d =? 59))
    then Some TIME_ERROR
    else
      let* ticks := sub64 ticks timezone in
      let* ticks := sub64 ticks daylightsaving in
      (* ticks += tick adds an unsigned value: modulo 2^64 *)
      Some (s64 (ticks + tick)).

(** src/diminuto_time.c:383-405 diminuto_time_zonename: J is 74. *)
Definition NAMES : list Z :=
  [89; 88; 87; 86; 85; 84; 83; 82; 81; 80; 79; 78; 90; 65; 66; 67; 68; 69; 70; 71; 72; 73; 75; 76; 77].
Definition zonename (ticks : Z) : option Z :=
  let* factor := mul64 frequency 3600 in
  let* r := rem64 ticks factor in
  if r =? 0 then
    let* t := div64 ticks factor in
    let* t := add64 t 12 in
    if (0 <=? t) && (t <? 25) then nth_error NAMES (Z.to_nat t) else Some 74
  else Some 74.

(** src/diminuto_time.c:407-433 diminuto_time_duration: the result code, then days,
    hours, minutes, seconds and ticks. Stores to int convert. *)
Record span := Span { sign : Z; days : Z; hours : Z; minutes : Z; seconds : Z; ticks_ : Z }.
Definition duration (ticks : Z) : option span :=
  let* '(ticks, rc) := (if ticks <? 0 then (let* t := ck_s64 (- ticks) in Some (t, -1)) else Some (ticks, 1)) in
  let divisor := frequency * 60 * 60 * 24 in
  let* d := div64 ticks divisor in let* ticks := rem64 ticks divisor in
  let divisor := frequency * 60 * 60 in
  let* h := div64 ticks divisor in let* ticks := rem64 ticks divisor in
  let divisor := frequency * 60 in
  let* m := div64 ticks divisor in let* ticks := rem64 ticks divisor in
  let divisor := frequency in
  let* s := div64 ticks divisor in let* t := rem64 ticks divisor in
  Some (Span rc (s32 d) (s32 h) (s32 m) (s32 s) (u64 t)).

(** src/diminuto_time.c:435-437: the state of the logical clock. *)
Record logical := Logical { counter : Z; error : bool }.
Definition logical_init : logical := Logical 0 false.

(** src/diminuto_time.c:439-475: calls are atomic, being inside a critical section of
    one mutex, so that a history of several threads is a list of calls. *)
Inductive logical_call := Now | Reset | Set_ (value : Z).

(** 439-457 diminuto_time_logical: the value and whether errno was set to EOVERFLOW;
    459-464 diminuto_time_logical_reset; 469-475 diminuto_time_logical_set. *)
Definition logical_step (s : logical) (c : logical_call) : logical * list (Z * bool) :=
  match c with
  | Now =>
      let result := counter s in
      let c' := u64 (counter s + 1) in
      if error s then (Logical c' true, [(result, true)])
      else if c' =? 0 then (Logical c' true, [(result, false)])
      else (Logical c' false, [(result, false)])
  | Reset => (Logical (counter s) false, [])
  | Set_ v => (Logical v false, [])
  end.
Fixpoint logical_run (s : logical) (cs : list logical_call) : logical * list (Z * bool) :=
  match cs with
  | [] => (s, [])
  | c :: cs =>
      let '(s, out) := logical_step s c in
      let '(s, out') := logical_run s cs in (s, out ++ out')
  end.
