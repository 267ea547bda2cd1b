(** What a walk through a file system is. *)

From Coq Require Import ZArith List Bool.
From Verif Require Import CUtil WalkModel.
Import ListNotations.
Local Open Scope Z_scope.

(** A C string: no NUL in it. *)
Definition string_ok (s : list Z) : Prop := ~ In 0 s.
Definition each {A} (P : A -> Prop) : list A -> Prop :=
  fix each (l : list A) : Prop := match l with [] => True | x :: l => P x /\ each l end.
Fixpoint node_ok (n : node) : Prop :=
  match n with
  | Unseen _ => True
  | Seen _ _ entries _ _ => each (fun e => match e with (name, n) => string_ok name /\ node_ok n end) entries
  end.

(** The path of a name in a directory. *)
Definition join (base name : list Z) : list Z :=
  match base with
  | [] => name
  | _ => if last base 0 =? 47 then base ++ name else base ++ 47 :: name
  end.

(** The entries of a directory that are no objects in it; what mode is that of a directory
    (inode(7): the file type is the four bits from the twelfth on, and 4 is a directory);
    and which errors are ignored, of lstat(2) and of opendir(3): EACCES, ENOENT, ENOTDIR,
    ENODEV and for the former EOVERFLOW. *)
Definition no_entry (name : list Z) : bool := if in_dec (list_eq_dec Z.eq_dec) name [[]; [46]; [46; 46]] then true else false.
Definition directory (mode : Z) : bool := (mode / 2 ^ 12) mod 2 ^ 4 =? 4.
Definition forgiven_open (errno : Z) : bool := existsb (Z.eqb errno) [13; 2; 20; 19].
Definition forgiven (errno : Z) : bool := existsb (Z.eqb errno) [13; 2; 20; 19; 75].

(** All there is to visit: an object, and if it is a directory that can be opened then all
    there is to visit for each of its entries, in their order, other than itself and its
    parent. *)
Fixpoint everything (n : node) (name base : list Z) (depth : Z) : list visit :=
  match n with
  | Unseen _ => []
  | Seen mode unopened entries _ _ =>
      Visit name (join base name) depth mode ::
      match directory mode, unopened with
      | true, None => flat_map (fun e => match e with (d_name, n) => if no_entry d_name then [] else everything n d_name (join base name) (depth + 1) end) entries
      | _, _ => []
      end
  end.

(** What can go wrong: the answers of the file system that a walk does not ignore. *)
Fixpoint troubles (n : node) : list Z :=
  match n with
  | Unseen errno => if forgiven errno then [] else [-6]
  | Seen mode unopened entries unread unclosed =>
      match directory mode, unopened with
      | true, None =>
          flat_map (fun e => match e with (d_name, n) => if no_entry d_name then [] else troubles n end) entries
          ++ (if unread then [-8] else []) ++ (if unclosed then [-9] else [])
      | true, Some errno => if forgiven_open errno then [] else [-7]
      | false, _ => []
      end
  end.
(** Whether all paths fit: the name of each object is not empty and leaves room for it, a
    slash and the NUL, and no object is too deep. *)
Fixpoint fits (n : node) (name base : list Z) (depth : Z) : Prop :=
  name <> [] /\ Z.of_nat (length base) + Z.of_nat (length name) + 2 <= SIZE /\ depth <= SIZE / 2 /\
  match n with
  | Unseen _ => True
  | Seen mode unopened entries _ _ =>
      match directory mode, unopened with
      | true, None => each (fun e => match e with (d_name, n) => no_entry d_name = false -> fits n d_name (join base name) (depth + 1) end) entries
      | _, _ => True
      end
  end.

(** The names in each directory differ from each other, and have no slash in them. *)
Fixpoint proper (n : node) : Prop :=
  match n with
  | Unseen _ => True
  | Seen _ _ entries _ _ => NoDup (map fst entries) /\ each (fun e => match e with (name, n) => ~ In 47 name /\ proper n end) entries
  end.

Definition prefix {A} (l m : list A) : Prop := exists k, m = l ++ k.

(** A function for the walk that also notes what it is called with, and what it returned. *)
Definition noting {S} (f : S -> visit -> Z * S) (s : S * list (visit * Z)) (v : visit) : Z * (S * list (visit * Z)) :=
  let '(rc, s') := f (fst s) v in (rc, (s', snd s ++ [(v, rc)])).

(** How a walk ends, in view of what it noted: it returns zero exactly if there was no
    trouble, all fits and each call returned zero, and then it visited everything. If it
    returns something else, that is what the last call returned, or one of the troubles, or
    tells that something does not fit. *)
Definition completed (h : list (visit * Z)) : Prop := Forall (fun x => snd x = 0) h.
Definition halted (k : Z) (h : list (visit * Z)) : Prop := exists h' v, h = h' ++ [(v, k)] /\ k <> 0 /\ completed h'.
Definition ends (n : node) (name base : list Z) (depth : Z) (rc : Z) (h : list (visit * Z)) : Prop :=
  (rc = 0 /\ map fst h = everything n name base depth /\ completed h /\ troubles n = [] /\ fits n name base depth) \/
  (rc <> 0 /\ prefix (map fst h) (everything n name base depth) /\
   ((exists k, halted k h /\ (rc = k \/ In rc (troubles n))) \/
    (completed h /\ (In rc (troubles n) \/ (~ fits n name base depth /\ In rc [-3; -4; -5]))))).
