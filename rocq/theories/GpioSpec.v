(** What reading and writing a pin from the command line is. *)

From Coq Require Import ZArith List Bool String.
From Verif Require Import NumberSpec PinModel PinSpec GpioModel.
Import ListNotations.
Local Open Scope Z_scope.

(** The kernel lets a pin be exported and its direction be set, and its value be opened. *)
Definition ready (w : world) (tries : Z) : Prop :=
  (opens (w_export w) 1 /\ fputs (w_export w) = None /\ fflush (w_export w) = None /\ fclose (w_export w) = true) /\
  (opens (w_direction w) (Z.to_nat tries) /\ fputs (w_direction w) = None /\ fflush (w_direction w) = None /\ fclose (w_direction w) = true) /\
  w_stat w = true /\ w_fopen w = true.
(** It lets it be unexported. *)
Definition releases (w : world) : Prop :=
  opens (w_unexport w) 1 /\ fputs (w_unexport w) = None /\ fflush (w_unexport w) = None /\ fclose (w_unexport w) = true.

(** A pin was exported, its direction set, and its value opened, in this mode. *)
Definition prepared (root : list Z) (pin : Z) (way : string) (mode : Z) (t : list action) : Prop :=
  exists t1 t2, wrote (exporting root) (dec pin ++ newline) t1 /\ wrote (file root pin "direction") (text way ++ newline) t2 /\
    t = t1 ++ t2 ++ [Stat (file root pin "value"); Fopen (file root pin "value") mode].
(** A pin was unexported and its value closed. *)
Definition released (root : list Z) (pin : Z) (t : list action) : Prop :=
  exists t1, wrote (unexporting root) (dec pin ++ newline) t1 /\ t = t1 ++ [Fclose].

(** Something was written to this file. *)
Fixpoint written (f : list Z) (t : list action) : Prop :=
  match t with
  | Fopen g _ :: ((Fputs _ :: _) as t') => g = f \/ written f t'
  | _ :: t' => written f t'
  | [] => False
  end.
