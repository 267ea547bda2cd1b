(** Specification of delays: time asleep, in nanoseconds. *)

From Coq Require Import ZArith List Bool.
From Verif Require Import DelayModel.
Import ListNotations.
Local Open Scope Z_scope.

Definition nanoseconds (t : timespec) : Z := fst t * 1000000000 + snd t.
Definition valid (t : timespec) : Prop := 0 <= fst t /\ 0 <= snd t < 1000000000.

(** What the kernel promises: what remains is valid and no more than was asked for. *)
Definition honest (trace : list (timespec * answer)) : Prop :=
  Forall (fun '(t, a) => match a with
                         | Interrupted r => valid r /\ nanoseconds r <= nanoseconds t
                         | _ => True
                         end) trace.

(** The time asleep. *)
Definition asleep (trace : list (timespec * answer)) : Z :=
  fold_right (fun '(t, a) sum => match a with
                                 | Slept => nanoseconds t
                                 | Interrupted r => nanoseconds t - nanoseconds r
                                 | Refused => 0
                                 end + sum) 0 trace.
