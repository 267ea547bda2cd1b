(** What rate control means. *)

From Coq Require Import ZArith List Bool.
From Verif Require Import CInt ThrottleModel.
Import ListNotations.
Local Open Scope Z_scope.

(** A client that follows the contract: at each of the times given it asks, and only
    when told that no delay is required does it emit the number of events given and
    commit them. Times are unbounded here, the clock shows them modulo 2^64. The
    result is what was emitted, and when. *)
Fixpoint client (s : throttle) (attempts : list (Z * Z)) : list (Z * Z) :=
  match attempts with
  | [] => []
  | (t, n) :: rest =>
      let '(s, delay) := request s (u64 t) in
      if delay =? 0 then (t, n) :: client (commitn s n) rest else client s rest
  end.
Fixpoint shaper_client (s : shaper) (attempts : list (Z * Z)) : list (Z * Z) :=
  match attempts with
  | [] => []
  | (t, n) :: rest =>
      let '(s, delay) := shaper_request s (u64 t) in
      if delay =? 0 then (t, n) :: shaper_client (fst (shaper_commitn s n)) rest else shaper_client s rest
  end.

(** The clock does not run backwards, and no two attempts in succession are a whole
    2^64 ticks (585 years) apart. *)
Fixpoint clock (start : Z) (attempts : list (Z * Z)) : Prop :=
  match attempts with
  | [] => True
  | (t, _) :: rest => start <= t /\ clock t rest
  end.
(** All times are less than 2^64 ticks after the start. *)
Definition within (start : Z) (attempts : list (Z * Z)) : Prop :=
  Forall (fun a => fst a < start + 2 ^ 64) attempts.

(** No emission is so large that the arithmetic wraps around. *)
Definition sizes (increment limit : Z) (attempts : list (Z * Z)) : Prop :=
  Forall (fun a => 0 <= snd a /\ limit + snd a * increment < 2 ^ 64) attempts.

Definition total (l : list (Z * Z)) : Z := fold_right Z.add 0 (map snd l).

(** A bucket that leaks one unit per tick: its level at time [t] if it held [level]
    at time [t0]. *)
Definition leak (level t0 t : Z) : Z := Z.max 0 (level - (t - t0)).

(** A history of calls: at each of the times given the client asks, and then commits
    a number of events, whether they conform or not, or does not commit. *)
Fixpoint history (s : throttle) (l : list (Z * option Z)) : throttle :=
  match l with
  | [] => s
  | (t, Some n) :: rest => history (commitn (fst (request s (u64 t))) n) rest
  | (t, None) :: rest => history (fst (request s (u64 t))) rest
  end.

(** The bucket: its level after the history (and the time it had that level), when it
    had [level] at time [t0]. *)
Fixpoint bucket (increment level t0 : Z) (l : list (Z * option Z)) : Z * Z :=
  match l with
  | [] => (level, t0)
  | (t, Some n) :: rest => bucket increment (leak level t0 t + n * increment) t rest
  | (_, None) :: rest => bucket increment level t0 rest
  end.

(** What was in the bucket when each of the committed events arrived. *)
Fixpoint arrivals (increment level t0 : Z) (l : list (Z * option Z)) : list Z :=
  match l with
  | [] => []
  | (t, Some n) :: rest =>
      leak level t0 t :: arrivals increment (leak level t0 t + n * increment) t rest
  | (_, None) :: rest => arrivals increment level t0 rest
  end.

(** The history is possible: the clock does not run backwards nor all the way round
    (585 years), and the bucket never holds as much as 2^64. *)
Fixpoint possible (start increment level t0 : Z) (l : list (Z * option Z)) : Prop :=
  match l with
  | [] => True
  | (t, Some n) :: rest =>
      t0 <= t < start + 2 ^ 64 /\ 0 <= n /\ leak level t0 t + n * increment < 2 ^ 64 /\ possible start increment (leak level t0 t + n * increment) t rest
  | (t, None) :: rest => t0 <= t < start + 2 ^ 64 /\ possible start increment level t0 rest
  end.

(** An alarm with hysteresis: raised when an arrival finds the bucket over the limit,
    cleared when one finds it empty, and otherwise as it was. *)
Definition alarm (limit : Z) (before : bool) (level : Z) : bool :=
  if level =? 0 then false else if level >? limit then true else before.

(** Admissions to a shaper. *)
Fixpoint shaper_history (s : shaper) (l : list (Z * Z)) : shaper :=
  match l with [] => s | (t, n) :: rest => shaper_history (fst (shaper_admitn s (u64 t) n)) rest end.
Definition committed (l : list (Z * Z)) : list (Z * option Z) := map (fun a => (fst a, Some (snd a))) l.

(** A burst: single events from [start] on at the peak rate. *)
Definition burst (start peakincrement : Z) (size : nat) : list (Z * Z) :=
  map (fun i => (start + Z.of_nat i * peakincrement, 1)) (seq 0 size).
