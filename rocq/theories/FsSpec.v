(** What the paths, and the calls of mkdir(2), are to be. *)

From Coq Require Import ZArith List Bool.
From Verif Require Import CUtil WalkModel WalkSpec.
Import ListNotations.
Local Open Scope Z_scope.

(** The text between delimiters: one more than there are delimiters; and what of it is not
    empty. *)
Fixpoint split (d : Z) (l : list Z) : list (list Z) :=
  match l with
  | [] => [[]]
  | x :: l => if x =? d then [] :: split d l else match split d l with a :: r => (x :: a) :: r | [] => [[x]] end
  end.
Fixpoint glue (d : Z) (l : list (list Z)) : list Z := match l with [] => [] | [x] => x | x :: l => x ++ d :: glue d l end.
Definition components (d : Z) (l : list Z) : list (list Z) := filter (fun x => match x with [] => false | _ => true end) (split d l).

(** What comes before the last slash, and what after: nothing and all, if there is none. *)
Fixpoint before (l : list Z) : list Z := match l with [] => [] | x :: r => if existsb (Z.eqb 47) r then x :: before r else [] end.
Fixpoint after (l : list Z) : list Z := match l with [] => [] | x :: r => if existsb (Z.eqb 47) r then after r else if x =? 47 then r else l end.

(** The directories that a path is made of, outermost first: "/a", "/a/b", ... or "a",
    "a/b", ... *)
Fixpoint within (base : list Z) (l : list (list Z)) : list (list Z) :=
  match l with
  | [] => []
  | x :: l => (base ++ x) :: within (base ++ x ++ [47]) l
  end.
Definition directories (path : list Z) : list (list Z) :=
  within (if hd 0 path =? 47 then [47] else []) (components 47 path).

(** To make directories, one after the other, until one cannot be made and is not there. *)
Fixpoint make {F} (mkdir : F -> list Z -> option Z * F) (fs : F) (l : list (list Z)) : Z * F :=
  match l with
  | [] => (0, fs)
  | d :: l =>
      match mkdir fs d with
      | (None, fs) => make mkdir fs l
      | (Some 17, fs) => make mkdir fs l
      | (Some _, fs) => (-1, fs)
      end
  end.

(** realpath(3) gives absolute paths that fit into its buffer. *)
Definition real_ok (realpath : list Z -> option (list Z)) : Prop :=
  forall p q, realpath p = Some q -> hd 0 q = 47 /\ string_ok q /\ Z.of_nat (length q) < SIZE.

(** What of a path must exist, and what need not: "d/f" has d and f; but if f is nothing or
    one of the names that each directory has, all of it must exist; and "f" is in the
    current directory. *)
Definition must (path : list Z) : list Z :=
  if existsb (Z.eqb 47) path then if no_entry (after path) then path else before path ++ [47] else [46].
Definition need_not (path : list Z) : list Z :=
  if existsb (Z.eqb 47) path then if no_entry (after path) then [] else after path else path.
(** The root itself, or something in it. *)
Definition rooted (path : list Z) : Prop := exists f, path = 47 :: f /\ ~ In 47 f.

(** The first path of a list, if any, at which there is something. *)
Definition first_of (stat : list Z -> bool) (l : list (list Z)) : option (list Z) := List.find stat l.
(** Where a file may be, given the text of a search path; and those of these paths that come
    before the first that is too long. *)
Definition candidates (string file : list Z) : list (list Z) := map (fun d => d ++ [47] ++ file) (components 58 string).
Fixpoint until_long (l : list (list Z)) : list (list Z) :=
  match l with
  | [] => []
  | x :: l => if Z.of_nat (length x) <? SIZE then x :: until_long l else []
  end.

(** A file system that keeps the paths there are, each with whether it is a directory, and
    in which mkdir(2) does as its manual page says (without permissions, links, and the
    names . and ..). *)
Definition disk : Type := list (list Z * bool).
Fixpoint lookup (fs : disk) (d : list Z) : option bool :=
  match fs with
  | [] => None
  | (x, k) :: fs => if list_eq_dec Z.eq_dec x d then Some k else lookup fs d
  end.
Definition mkdir2 (fs : disk) (d : list Z) : option Z * disk :=
  match lookup fs d with
  | Some _ => (Some 17, fs)
  | None =>
      match before d with
      | [] => (None, (d, true) :: fs)
      | p =>
          match lookup fs p with
          | Some true => (None, (d, true) :: fs)
          | Some false => (Some 20, fs)
          | None => (Some 2, fs)
          end
      end
  end.
