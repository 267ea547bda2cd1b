(** Specification for lines. *)

From Coq Require Import ZArith List Bool.
From Verif Require Import NumberSpec LineModel.
Import ListNotations.
Local Open Scope Z_scope.

(** How the path of a device begins: "/", "./", or "../". *)
Definition begins (s : list Z) : Prop := exists t, s = [47] ++ t \/ s = [46; 47] ++ t \/ s = [46; 46; 47] ++ t.

(** The signs there may be, and whether they invert. *)
Inductive signed : list Z -> bool -> Prop :=
| signed_none : signed [] false
| signed_plus : signed [43] false
| signed_minus : signed [45] true.

(** A number as it is written: nothing before the digits. *)
Definition number (s : list Z) (n : Z) : Prop := body s n /\ 0 <= n < 2 ^ 32.

(** The values of lines kept by a kernel: it sets those in the mask, and gets them. *)
Definition kernel := Z -> bool.
Definition sets (ioctl : kernel -> Z -> Z -> option kernel) : Prop :=
  forall k mask bits k', ioctl k mask bits = Some k' -> forall i, 0 <= i -> k' i = if Z.testbit mask i then Z.testbit bits i else k i.
Definition gets (ioctl : kernel -> Z -> option Z) : Prop :=
  forall k mask bits, ioctl k mask = Some bits -> forall i, 0 <= i -> Z.testbit bits i = (Z.testbit mask i && k i)%bool.

(** A device that may have the line, one that has it as its k-th, and what is done with
    the devices of a list: all that are opened are closed. *)
Definition candidate (prefix : list Z) (n : node) : Prop := chardev n = true /\ exists more, name n = prefix ++ more.
Definition has (wanted prefix : list Z) (n : node) (k : Z) : Prop :=
  candidate prefix n /\ 0 <= opened n /\ wanted <> [] /\
  exists m, lines n = Some m /\ 0 <= k < m /\ line n k = Some wanted /\
    forall j, 0 <= j < k -> exists other, line n j = Some other /\ other <> wanted.
Inductive uses (prefix : list Z) : list node -> list call -> Prop :=
| uses_nil : uses prefix [] []
| uses_skip n ns cs : ~ candidate prefix n -> uses prefix ns cs -> uses prefix (n :: ns) cs
| uses_fail n ns cs : candidate prefix n -> opened n < 0 -> uses prefix ns cs -> uses prefix (n :: ns) (Open (path n) :: cs)
| uses_open n ns cs : candidate prefix n -> 0 <= opened n -> uses prefix ns cs -> uses prefix (n :: ns) (Open (path n) :: Close (opened n) :: cs).
