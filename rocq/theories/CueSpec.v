(** What debouncing means. *)

From Coq Require Import ZArith List Bool.
From Verif Require Import CInt CueModel.
Import ListNotations.
Local Open Scope Z_scope.

(** The level of a sample: any nonzero value is high. *)
Definition high (x : Z) : bool := negb (x =? 0).

(** The [k]-th most recent sample (0 is the last one); the line is taken to have
    been at the initial level before the first sample. *)
Definition recent (initial : Z) (samples : list Z) (k : nat) : bool :=
  nth k (map high (rev samples)) (high initial).

(** The last three samples agree on a level. *)
Definition steady (initial : Z) (samples : list Z) : option bool :=
  let x := recent initial samples 0 in
  if eqb x (recent initial samples 1) && eqb x (recent initial samples 2) then Some x else None.

(** The edges reported after each sample of a history, first to last. *)
Fixpoint edges_from (s : cue) (samples : list Z) : list edge_t :=
  match samples with
  | [] => []
  | x :: rest => let s := debounce s x in edge s :: edges_from s rest
  end.

(** Only the changes. *)
Definition changes (es : list edge_t) : list edge_t :=
  filter (fun e => match e with RISING | FALLING => true | _ => false end) es.

(** Strictly alternating, starting with a rise if the level was low and with a
    fall if it was high. *)
Fixpoint alternating (level : bool) (es : list edge_t) : Prop :=
  match es with
  | [] => True
  | e :: rest => e = (if level then FALLING else RISING) /\ alternating (negb level) rest
  end.
