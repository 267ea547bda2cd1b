(** Model of diminuto_throttle.c, diminuto_throttle.h and diminuto_shaper.c: a
    generic cell rate algorithm. diminuto_ticks_t and size_t are unsigned and have 64
    bits: all arithmetic is modulo 2^64. The log functions are not modelled. *)

From Coq Require Import ZArith List Bool.
From Verif Require Import CInt.
Import ListNotations.
Local Open Scope Z_scope.

(** inc/com/diag/diminuto/diminuto_throttle.h:58-73. *)
Record throttle := Throttle {
  now_ : Z; then_ : Z; increment : Z; limit : Z; expected : Z; actual : Z;
  full0 : bool; full1 : bool; full2 : bool;
  empty0 : bool; empty1 : bool; empty2 : bool;
  alarmed1 : bool; alarmed2 : bool }.

(** src/diminuto_throttle.c:17-37 diminuto_throttle_interarrivaltime. *)
Definition interarrivaltime (numerator denominator frequency : Z) : Z :=
  let increment := frequency in
  let increment := if denominator >? 1 then u64 (increment * denominator) else increment in
  if numerator <=? 1 then increment
  else if increment mod numerator >? 0 then u64 (increment / numerator + 1)
  else increment / numerator.

(** src/diminuto_throttle.c:39-49 diminuto_throttle_jittertolerance. *)
Definition jittertolerance (increment maximumburstsize : Z) : Z :=
  if maximumburstsize >? 1 then u64 (u64 (maximumburstsize - 1) * increment) else 0.

(** src/diminuto_throttle.c:51-62 diminuto_throttle_reset. *)
Definition reset (s : throttle) (now : Z) : throttle :=
  Throttle now (u64 (now - increment s)) (increment s) (limit s) 0 0
    false false false true true true false false.

(** src/diminuto_throttle.c:64-70 diminuto_throttle_init. *)
Definition init (increment limit now : Z) : throttle :=
  reset (Throttle 0 0 increment limit 0 0 false false false false false false false false) now.

(** src/diminuto_throttle.c:72-94 diminuto_throttle_request. *)
Definition request (s : throttle) (now : Z) : throttle * Z :=
  let elapsed := u64 (now - then_ s) in
  let upd a f e := Throttle now (then_ s) (increment s) (limit s) (expected s) a
                     f (full1 s) (full2 s) e (empty1 s) (empty2 s) (alarmed1 s) (alarmed2 s) in
  if expected s <=? elapsed then (upd 0 false true, 0)
  else
    let actual := u64 (expected s - elapsed) in
    if actual <=? limit s then (upd actual false false, 0)
    else (upd actual true false, u64 (actual - limit s)).

(** inc diminuto_throttle.h:258-325. *)
Definition isempty (s : throttle) : bool := empty1 s.
Definition isfull (s : throttle) : bool := full1 s.
Definition isalarmed (s : throttle) : bool := alarmed1 s.
Definition emptied (s : throttle) : bool := empty1 s && negb (empty2 s).
Definition filled (s : throttle) : bool := full1 s && negb (full2 s).
Definition alarmed (s : throttle) : bool := alarmed1 s && negb (alarmed2 s).
Definition cleared (s : throttle) : bool := negb (alarmed1 s) && alarmed2 s.

(** src/diminuto_throttle.c:96-114 diminuto_throttle_commitn; the result is
    [alarmed1]. *)
Definition commitn (s : throttle) (events : Z) : throttle :=
  let s1 := Throttle (now_ s) (now_ s) (increment s) (limit s)
              (u64 (actual s + u64 (events * increment s))) (actual s)
              (full0 s) (full0 s) (full1 s) (empty0 s) (empty0 s) (empty1 s)
              (alarmed1 s) (alarmed1 s) in
  let a := if emptied s1 then false else if filled s1 then true else alarmed1 s1 in
  Throttle (now_ s1) (then_ s1) (increment s1) (limit s1) (expected s1) (actual s1)
    (full0 s1) (full1 s1) (full2 s1) (empty0 s1) (empty1 s1) (empty2 s1) a (alarmed2 s1).

(** inc diminuto_throttle.h:204-209 diminuto_throttle_admitn; 231-234
    diminuto_throttle_update is this with 0 events. *)
Definition admitn (s : throttle) (now events : Z) : throttle := commitn (fst (request s now)) events.

(** inc diminuto_shaper.h:41-44. *)
Record shaper := Shaper { peak : throttle; sustained : throttle }.

(** src/diminuto_shaper.c:17-35 diminuto_shaper_bursttolerance. *)
Definition bursttolerance (peakincrement jitter sustainedincrement maximumburstsize : Z) : Z :=
  let limit :=
    if maximumburstsize <=? 1 then 0
    else if sustainedincrement <=? peakincrement then 0
    else u64 (u64 (maximumburstsize - 1) * u64 (sustainedincrement - peakincrement)) in
  u64 (limit + jitter).

(** src/diminuto_shaper.c:37-65 diminuto_shaper_init. *)
Definition shaper_init (peakincrement jitter sustainedincrement burst now : Z) : shaper :=
  Shaper (init peakincrement jitter now) (init sustainedincrement burst now).

(** src/diminuto_shaper.c:67-76 diminuto_shaper_request. *)
Definition shaper_request (s : shaper) (now : Z) : shaper * Z :=
  let '(p, dp) := request (peak s) now in
  let '(q, dq) := request (sustained s) now in
  (Shaper p q, if dp >? dq then dp else dq).

(** src/diminuto_shaper.c:78-87 diminuto_shaper_commitn. *)
Definition shaper_commitn (s : shaper) (events : Z) : shaper * bool :=
  let p := commitn (peak s) events in
  let q := commitn (sustained s) events in
  (Shaper p q, alarmed1 p || alarmed1 q).

(** src/diminuto_shaper.c:89-98 diminuto_shaper_admitn. *)
Definition shaper_admitn (s : shaper) (now events : Z) : shaper * bool :=
  let p := admitn (peak s) now events in
  let q := admitn (sustained s) now events in
  (Shaper p q, alarmed1 p || alarmed1 q).
