(** What a controller and a modulator are for. *)

From Coq Require Import ZArith List Bool.
From Verif Require Import CInt ControlModel.
Import ListNotations.
Local Open Scope Z_scope.

(** A gain multiplies by a fraction, truncating; a zero denominator stands for a very
    large value. *)
Definition gained (v : Z) (g : gain) : Z :=
  if denominator g =? 0 then MAXIMUM_VALUE else Z.quot (v * numerator g) (denominator g).

Definition clamp (lo hi x : Z) : Z := Z.max lo (Z.min hi x).

(** Outputs the actuator must never see. *)
Definition forbidden (sp : parameters) (output : Z) : Prop :=
  output < minimum sp \/ maximum sp < output \/
  minimum sp < output < lower sp \/ upper sp < output < maximum sp.

Definition is_gain (g : gain) : Prop := is_s16 (numerator g) /\ is_s16 (denominator g).
Definition is_parameters (sp : parameters) : Prop :=
  is_s32 (windup sp) /\ 0 <= windup sp /\ is_s16 (minimum sp) /\ is_s16 (maximum sp) /\ minimum sp <= maximum sp /\
  minimum sp <= upper sp /\ lower sp <= maximum sp /\
  is_gain (kp sp) /\ is_gain (ki sp) /\ is_gain (kd sp) /\ is_gain (kc sp).
Definition is_calls (calls : list (Z * Z)) : Prop := Forall (fun c => is_s16 (fst c) /\ is_s16 (snd c)) calls.

(** The parameters are moderate enough for the arithmetic not to overflow. *)
Definition most (g : gain) : Z := Z.max 1 (Z.abs (numerator g)).
Definition moderate (sp : parameters) : Prop :=
  denominator (kp sp) <> 0 /\ denominator (ki sp) <> 0 /\ denominator (kd sp) <> 0 /\ denominator (kc sp) <> 0 /\
  windup sp + 65535 * most (ki sp) < 2 ^ 31 /\
  (65535 * most (kp sp) + windup sp + 65535 * most (kd sp)) * most (kc sp) + 32768 < 2 ^ 31.

(** The actuator: what the client's function was last called with, after each of a
    number of ticks, when the function always succeeds. *)
Fixpoint levels (m : modulator) (level : bool) (n : nat) : list bool :=
  match n with
  | O => []
  | S n =>
      let '(m, call) := callback m 1 in
      let level := match call with Some v => v | None => level end in
      level :: levels m level n
  end.

(** The wave of a duty of a given on and off time, from the k-th tick on: [a]+1 ticks
    on, [b]+1 ticks off. *)
Definition wave (a b : Z) (k : Z) : bool := k mod (a + b + 2) <=? a.

(** What the modulator does in a history of ticks and new settings, the function
    always succeeding. *)
Inductive event := Tick | Set_ (duty : Z).
Definition event_ok (e : event) : Prop := match e with Tick => True | Set_ d => 0 <= d <= 255 end.
Fixpoint events (m : modulator) (level : bool) (l : list event) : modulator * bool :=
  match l with
  | [] => (m, level)
  | Tick :: l =>
      let '(m, call) := callback m 1 in
      events m (match call with Some v => v | None => level end) l
  | Set_ d :: l => events (modulator_set m d) level l
  end.

(** [a] and [b] are on and off times of a duty of [d] in 255. *)
Definition divided (d a b : Z) : Prop := 0 < a /\ 0 < b /\ a * (255 - d) = b * d /\ 17 <= a + b <= 255.

Definition count (l : list bool) : Z := fold_right (fun x n => if (x : bool) then 1 + n else n) 0 l.
