(** Model of diminuto_controller.c, a proportional, integral, differential controller,
    and of diminuto_modulator.c, a pulse width modulator. [None] is undefined
    behaviour. *)

From Coq Require Import ZArith List Bool.
From Verif Require Import CInt CUtil.
Import ListNotations.
Local Open Scope Z_scope.

(** * The controller *)

(** inc/com/diag/diminuto/diminuto_controller.h:45-100: values have 32 bits, inputs,
    outputs and factors 16. *)
Definition MAXIMUM_VALUE : Z := 2147483647.
Definition MINIMUM_OUTPUT : Z := -32768.
Definition MAXIMUM_OUTPUT : Z := 32767.

(** inc diminuto_controller.h:107-205. *)
Record gain := Gain { numerator : Z; denominator : Z }.
Record parameters := Parameters {
  windup : Z; minimum : Z; maximum : Z; lower : Z; upper : Z;
  kp : gain; ki : gain; kd : gain; kc : gain; filter : bool }.

(** inc diminuto_controller.h:221-267. *)
Record control := Control {
  sample : Z; proportional : Z; integral : Z; differential : Z; total : Z; delta : Z;
  previous : Z; initialized : bool }.

(** src/diminuto_controller.c:16-48 diminuto_controller_init. *)
Definition default_parameters : parameters :=
  Parameters MAXIMUM_VALUE MINIMUM_OUTPUT MAXIMUM_OUTPUT MINIMUM_OUTPUT MAXIMUM_OUTPUT
    (Gain 1 1) (Gain 1 1) (Gain 1 1) (Gain 1 1) true.
Definition control_init : control := Control 0 0 0 0 0 0 0 false.

(** src/diminuto_controller.c:104-122 apply_gain. INT_MIN / -1 overflows. *)
Definition apply_gain (value : Z) (g : gain) : option Z :=
  if denominator g =? 0 then Some MAXIMUM_VALUE
  else if numerator g =? 0 then Some 0
  else if numerator g =? denominator g then Some value
  else if denominator g =? 1 then ck_s32 (value * numerator g)
  else if numerator g =? 1 then ck_s32 (Z.quot value (denominator g))
  else let* v := ck_s32 (value * numerator g) in ck_s32 (Z.quot v (denominator g)).

(** src/diminuto_controller.c:124-243 diminuto_controller. The right shift of a
    negative value is arithmetic (implementation defined); storing to 16 bits wraps
    around (implementation defined). *)
Definition controller (sp : parameters) (dp : control) (target input output : Z) : option (control * Z) :=
  let dp := if initialized dp then dp
            else Control input (proportional dp) 0 (differential dp) (total dp) (delta dp) input true in
  let* sample := (if filter sp then (let* s := ck_s32 (sample dp + input) in Some (s / 2)) else Some input) in
  let* proportional := ck_s32 (target - sample) in
  let* total := apply_gain proportional (kp sp) in
  let* g := apply_gain proportional (ki sp) in
  let* integral := ck_s32 (integral dp + g) in
  let* integral := (if integral >? windup sp then Some (windup sp)
                    else let* w := ck_s32 (- windup sp) in Some (if integral <? w then w else integral)) in
  let* total := ck_s32 (total + integral) in
  let* differential := ck_s32 (sample - previous dp) in
  let* g := apply_gain differential (kd sp) in
  let* total := ck_s32 (total - g) in
  let previous := s16 sample in
  let* delta := apply_gain total (kc sp) in
  let* output := ck_s32 (output + delta) in
  let output := s16 output in
  let output := if output <? minimum sp then minimum sp
                else if output >? maximum sp then maximum sp else output in
  let output := if (minimum sp <? output) && (output <? lower sp) then minimum sp
                else if (upper sp <? output) && (output <? maximum sp) then maximum sp else output in
  Some (Control sample proportional integral differential total delta previous true, output).

(** A history of calls, each with target and input, each given the output of the one
    before. *)
Fixpoint controls (sp : parameters) (dp : control) (output : Z) (calls : list (Z * Z)) : option (control * Z) :=
  match calls with
  | [] => Some (dp, output)
  | (target, input) :: calls =>
      let* '(dp, output) := controller sp dp target input output in controls sp dp output calls
  end.

(** * The modulator *)

Definition DUTY_MAX : Z := 255.

(** src/diminuto_modulator.c:51-77 diminuto_modulator_factor: the new on and off, and
    whether anything was divided. *)
Fixpoint factor_loop (primes : list Z) (on off : Z) (rc : bool) : Z * Z * bool :=
  match primes with
  | [] => (on, off, rc)
  | p :: primes =>
      if p >? on then (on, off, rc)
      else if p >? off then (on, off, rc)
      else if on mod p >? 0 then factor_loop primes on off rc
      else if off mod p >? 0 then factor_loop primes on off rc
      else factor_loop primes (on / p) (off / p) true
  end.
Definition factor (on off : Z) : Z * Z * bool := factor_loop [2; 3; 5; 7; 11; 13] on off false.

(** inc diminuto_modulator.h:123-137: the timer is its state (running or not), the
    condition is not represented: its mutex makes set and the inner part of the
    callback atomic. *)
Record modulator := Modulator {
  on : Z; off : Z; cycle : Z; ton : Z; toff : Z; state : bool; set : bool; running : bool }.

(** src/diminuto_modulator.c:91-161 diminuto_modulator_set: the part up to where a
    caller waits for the callback to take the new values. *)
Definition modulator_set (m : modulator) (duty : Z) : modulator :=
  let on0 := duty in
  let off0 := u8 (DUTY_MAX - duty) in
  let '(on1, off1) :=
    if on0 =? 0 then (on0, off0) else if off0 =? 0 then (on0, off0)
    else let '(a, b, _) := factor on0 off0 in (a, b) in
  Modulator (on m) (off m) (cycle m) on1 off1 (state m) true (running m).

(** src/diminuto_modulator.c:259-306 diminuto_modulator_init, and 308-318
    diminuto_modulator_start. *)
Definition modulator_init (duty : Z) : modulator :=
  modulator_set (Modulator 0 DUTY_MAX 0 0 DUTY_MAX false false false) duty.
Definition modulator_start (m : modulator) : modulator :=
  Modulator (on m) (off m) (cycle m) (ton m) (toff m) (state m) (set m) true.

(** src/diminuto_modulator.c:163-248 callback: called at every tick of the timer while
    it is running. [rc] is what the client's function returns if it is called; the
    second result is the value it is called with, if it is. *)
Definition callback (m : modulator) (rc : Z) : modulator * option bool :=
  if cycle m >? 0 then (Modulator (on m) (off m) (cycle m - 1) (ton m) (toff m) (state m) (set m) (running m), None)
  else
    let m := if set m then Modulator (ton m) (toff m) (cycle m) (ton m) (toff m) (state m) false (running m) else m in
    if state m then
      if off m >? 0 then
        if rc <=? 0 then (Modulator (on m) (off m) (cycle m) (ton m) (toff m) (state m) (set m) false, Some false)
        else (Modulator (on m) (off m) (off m) (ton m) (toff m) false (set m) (running m), Some false)
      else (Modulator (on m) (off m) (on m) (ton m) (toff m) (state m) (set m) (running m), None)
    else
      if on m >? 0 then
        if rc <=? 0 then (Modulator (on m) (off m) (cycle m) (ton m) (toff m) (state m) (set m) false, Some true)
        else (Modulator (on m) (off m) (on m) (ton m) (toff m) true (set m) (running m), Some true)
      else (Modulator (on m) (off m) (off m) (ton m) (toff m) (state m) (set m) (running m), None).
