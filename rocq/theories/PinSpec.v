(** Specification for pins. *)

From Coq Require Import ZArith List Bool String Ascii.
From Verif Require Import NumberSpec PinModel.
Import ListNotations.
Local Open Scope Z_scope.

(** The octets of a text. *)
Fixpoint text (s : string) : list Z :=
  match s with EmptyString => [] | String c s => Z.of_nat (nat_of_ascii c) :: text s end.
Definition newline : list Z := [10].

(** The files of the kernel. *)
Definition exporting (root : list Z) : list Z := root ++ text "/class/gpio/export".
Definition unexporting (root : list Z) : list Z := root ++ text "/class/gpio/unexport".
Definition file (root : list Z) (pin : Z) (what : string) : list Z := root ++ text "/class/gpio/gpio" ++ dec pin ++ text "/" ++ text what.

(** How often something was done. *)
Fixpoint times (p : action -> bool) (l : list action) : nat :=
  match l with [] => 0 | a :: l => (if p a then 1 else 0) + times p l end.
Definition is_close (a : action) : bool := match a with Fclose => true | _ => false end.
Definition is_stat (a : action) : bool := match a with Stat _ => true | _ => false end.
Definition is_delay (a : action) : bool := match a with Delay _ => true | _ => false end.

(** A file was opened for writing, just this written to it, and it was closed. *)
Definition trying (file : list Z) (a : action) : Prop :=
  match a with Stat f => f = file | Fopen f mode => f = file /\ mode = 119 | Delay _ => True | _ => False end.
Definition wrote (file s : list Z) (l : list action) : Prop :=
  exists before, l = before ++ [Stat file; Fopen file 119; Fputs s; Fflush; Fclose] /\
    Forall (trying file) before.

(** Opening works: after failures that may go away, on one of the tries. *)
Definition temporary (e : err) : Prop := e = ENOENT \/ e = EPERM \/ e = EACCES.
Definition opens (a : answers) (tries : nat) : Prop :=
  exists k, (0 < k <= tries)%nat /\ stat a k = None /\ fopen a k = None /\
    forall j, (k < j <= tries)%nat -> exists e, temporary e /\ (stat a j = Some e \/ (stat a j = None /\ fopen a j = Some e)).
Definition fine (e : option err) (ignore : bool) : Prop := e = None \/ (e = Some EINVAL /\ ignore = true).

(** What configuring does. *)
Definition configured (a : answers) (tries : nat) (ignore : bool) (file s : list Z) (answer : Z * list action) : Prop :=
  let '(r, t) := answer in
  (r = 0 \/ r = -1) /\
  (r = 0 <-> opens a tries /\ fine (fputs a) ignore /\ fine (fflush a) ignore /\ fclose a = true) /\
  (r = 0 -> wrote file s t) /\
  (opens a tries -> times is_close t = 1%nat) /\ (~ opens a tries -> times is_close t = 0%nat) /\
  (times is_stat t <= tries)%nat /\ (times is_delay t <= tries - 1)%nat.
