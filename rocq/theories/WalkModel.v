(** Model of diminuto_fs_walker and diminuto_fs_walk of diminuto_fs.c.

    The file system is what the walk gets to see of it: for each name what lstat(2) has to
    say, and for each directory what opendir(3), readdir(3) and closedir(3) have. As each
    of them is called once for each path, in a tree of calls, this is no restriction: it
    covers file systems that change during the walk. The path is built in a buffer; [None]
    is an access outside of it. Simplifications: the log, errno. *)

From Coq Require Import ZArith List Bool.
From Verif Require Import CUtil CInt StringModel.
Import ListNotations.
Local Open Scope Z_scope.

(** inc/com/diag/diminuto/diminuto_types.h:106,162: sizeof(diminuto_path_t). *)
Definition SIZE : Z := 4096.

(** What is seen of an object: lstat(2) fails with an errno; or it is there, with a mode.
    If it is a directory: the errno with which opendir(3) fails, if it does; what readdir(3)
    returns; whether that fails in the end; whether closedir(3) fails. *)
Inductive node :=
  | Unseen (errno : Z)
  | Seen (mode : Z) (unopened : option Z) (entries : list (list Z * node)) (unread unclosed : bool).

(** S_ISDIR of inode(7). *)
Definition S_ISDIR (mode : Z) : bool := Z.land mode 61440 =? 16384.
(** errno(3) on Linux. *)
Definition ENOENT : Z := 2.
Definition EACCES : Z := 13.
Definition ENODEV : Z := 19.
Definition ENOTDIR : Z := 20.
Definition EOVERFLOW : Z := 75.
(** src/diminuto_fs.c:151 and 188. *)
Definition ignorable (errno : Z) : bool := (errno =? EACCES) || (errno =? ENOENT) || (errno =? ENOTDIR) || (errno =? EOVERFLOW) || (errno =? ENODEV).
Definition ignorable_open (errno : Z) : bool := (errno =? EACCES) || (errno =? ENOENT) || (errno =? ENOTDIR) || (errno =? ENODEV).

(** Storing a string over the start of a buffer, strcat(3) and the string in a buffer. *)
Fixpoint overwrite (l src : list Z) : option (list Z) :=
  match src, l with
  | [], _ => Some l
  | x :: src, _ :: l => option_map (cons x) (overwrite l src)
  | _ :: _, [] => None
  end.
Fixpoint strcat (dst src : list Z) : option (list Z) :=
  match dst with
  | [] => None
  | x :: r => if x =? 0 then overwrite dst (src ++ [0]) else option_map (cons x) (strcat r src)
  end.
Fixpoint cstr (l : list Z) : option (list Z) :=
  match l with
  | [] => None
  | x :: r => if x =? 0 then Some [] else option_map (cons x) (cstr r)
  end.
Definition peek (l : list Z) (i : Z) : option Z := if i <? 0 then None else nth_error l (Z.to_nat i).
Definition put (l : list Z) (i x : Z) : option (list Z) := if i <? 0 then None else poke l (Z.to_nat i) x.

(** src/diminuto_fs.c:220-225. *)
Definition is_dot (name : list Z) : bool :=
  match name with [] => true | [46] => true | [46; 46] => true | _ => false end.

(** What the function of the caller is called with (169): a name, a path, a depth and a mode. *)
Record visit := Visit { v_name : list Z; v_path : list Z; v_depth : Z; v_mode : Z }.

Section Walker.
  Variable S : Type.
  (** The function of the caller and its state; or none. *)
  Variable walkerp : option (S -> visit -> Z * S).
  Definition call (s : S) (v : visit) : Z * S := match walkerp with None => (0, s) | Some f => f s v end.

  (** src/diminuto_fs.c:202-232: the entries of a directory, with the recursion as an
      argument. *)
  Definition loop (unread : bool) (recurse : node -> list Z -> list Z -> S -> option (Z * list Z * S)) :=
    fix loop (l : list (list Z * node)) (path : list Z) (s : S) : option (Z * list Z * S) :=
      match l with
      | [] => Some (if unread then -8 else 0, path, s)
      | (d_name, n) :: l =>
          if is_dot d_name then loop l path s
          else
            let* '(rc, path, s) := recurse n d_name path s in
            if rc =? 0 then loop l path s else Some (rc, path, s)
      end.
  (** src/diminuto_fs.c:73-253 diminuto_fs_walker: what it returns, the buffer it leaves,
      the caller's state. *)
  Fixpoint walker (n : node) (name path : list Z) (total depth : Z) (s : S) {struct n} : option (Z * list Z * S) :=
    if depth >? SIZE / 2 then Some (-3, path, s)
    else
      let len := Z.min (Z.of_nat (length name)) SIZE in
      if len =? 0 then Some (-4, path, s)
      else if total + 1 + len + 1 >? SIZE then Some (-5, path, s)
      else
        let prior := total in
        let* '(path, total) :=
          if total =? 0 then Some (path, total)
          else
            let* c := peek path (total - 1) in
            if c =? 47 then Some (path, total)
            else
              let* path := put path total 47 in
              let* path := put path (total + 1) 0 in
              Some (path, total + 1) in
        let* path := strcat path name in
        let total := total + len in
        match n with
        | Unseen errno =>
            if ignorable errno then let* path := put path prior 0 in Some (0, path, s)
            else Some (-6, path, s)
        | Seen mode unopened entries unread unclosed =>
            let* whole := cstr path in
            let '(rc, s) := call s (Visit name whole depth mode) in
            if negb (rc =? 0) then Some (rc, path, s)
            else if S_ISDIR mode then
              match unopened with
              | Some errno =>
                  if ignorable_open errno then let* path := put path prior 0 in Some (0, path, s)
                  else Some (-7, path, s)
              | None =>
                  let* '(xc, path, s) :=
                    loop unread (fun n d_name path s => walker n d_name path total (depth + 1) s) entries path s in
                  let* path := put path prior 0 in
                  Some (if unclosed then -9 else xc, path, s)
              end
            else let* path := put path prior 0 in Some (0, path, s)
        end.

  (** src/diminuto_fs.c:255-266 diminuto_fs_walk: [real] is what realpath(3) returns. *)
  Definition walk (real : option (list Z)) (n : node) (s : S) : option (Z * S) :=
    match real with
    | None => Some (-2, s)
    | Some real => let* '(rc, _, s) := walker n real (repeat 0 (Z.to_nat SIZE)) 0 0 s in Some (rc, s)
    end.
End Walker.
