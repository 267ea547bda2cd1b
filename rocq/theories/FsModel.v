(** Model of the rest of diminuto_fs.c, and of diminuto_path.c. Paths are the octets before
    the NUL; buffers are lists of octets; [None] is an access outside of one. What the
    kernel and the C library know of the file system is asked of functions that are
    arguments here: mkdir(2), realpath(3), stat(2). Simplifications: the log, errno (but
    for that of mkdir(2)). *)

From Coq Require Import ZArith List Bool.
From Verif Require Import CUtil CInt StringModel WalkModel.
Import ListNotations.
Local Open Scope Z_scope.

(** strtok_r(3), with one delimiter: [l] is what is left of the string and [pos] where that
    starts. The token, where it starts, and what is left. *)
Fixpoint skip (d : Z) (l : list Z) (pos : Z) : list Z * Z :=
  match l with
  | x :: l' => if x =? d then skip d l' (pos + 1) else (l, pos)
  | [] => (l, pos)
  end.
Fixpoint cut (d : Z) (l : list Z) : list Z * list Z :=
  match l with
  | x :: l' => if x =? d then ([], l') else let '(a, b) := cut d l' in (x :: a, b)
  | [] => ([], [])
  end.
Definition strtok (d : Z) (l : list Z) (pos : Z) : option (list Z * Z * list Z * Z) :=
  let '(l, pos) := skip d l pos in
  match l with
  | [] => None
  | _ => let '(token, rest) := cut d l in Some (token, pos, rest, pos + Z.of_nat (length token) + 1)
  end.

(** errno(3) on Linux. *)
Definition EEXIST : Z := 17.

(** mkdir(2): the errno if it fails; and the file system after it. *)
Section Mkdir.
  Variable F : Type.
  Variable mkdir : F -> list Z -> option Z * F.

  (** src/diminuto_fs.c:311-331: the loop. The number of turns is bounded by the length of
      the string; [None] too if that is exceeded. *)
  Fixpoint mkdir_loop (fuel : nat) (rest : list Z) (pos : Z) (sink : list Z) (fs : F) : option (Z * F) :=
    match fuel with
    | O => None
    | S fuel =>
        match strtok 47 rest pos with
        | None => Some (0, fs)
        | Some (token, at_, rest, pos) =>
            let* sink := if negb (at_ =? 0) then strcat sink [47] else Some sink in
            let* sink := strcat sink token in
            let* name := cstr sink in
            match mkdir fs name with
            | (None, fs) => mkdir_loop fuel rest pos sink fs
            | (Some errno, fs) => if errno =? EEXIST then mkdir_loop fuel rest pos sink fs else Some (-1, fs)
            end
        end
    end.
  (** src/diminuto_fs.c:268-335 diminuto_fs_mkdir_p. *)
  Definition mkdir_p (path : list Z) (all : bool) (fs : F) : option (Z * F) :=
    let len := Z.of_nat (length path) in
    if len >=? SIZE then Some (-1, fs)
    else if len <=? 0 then Some (0, fs)
    else
      let source :=
        if all then Some path
        else
          match strrchr path 47 with
          | None => None
          | Some p => if Z.of_nat (length p) =? len then None else Some (firstn (Z.to_nat (len - Z.of_nat (length p))) path)
          end in
      match source with
      | None => Some (0, fs)
      | Some source => mkdir_loop (S (length source)) source 0 (repeat 0 (length path + 1)) fs
      end.
End Mkdir.

Definition eq_str (a b : list Z) : bool := if list_eq_dec Z.eq_dec a b then true else false.

(** src/diminuto_fs.c:337-356 diminuto_fs_expand: what it returns, and the buffer.
    strncpy(3) fills what is left of the size with NULs. *)
Definition strncpy (buffer src : list Z) (n : nat) : option (list Z) := overwrite buffer (firstn n (src ++ repeat 0 n)).
Definition expand (realpath : list Z -> option (list Z)) (path buffer : list Z) (size : Z) : option (Z * list Z) :=
  match realpath path with
  | None => Some (-1, buffer)
  | Some expanded =>
      if size =? 0 then Some (-1, buffer)
      else
        let* buffer := strncpy buffer expanded (Z.to_nat size) in
        let* buffer := put buffer (size - 1) 0 in
        Some (0, buffer)
  end.

(** src/diminuto_fs.c:385-441: the path to be resolved, its length if that matters (whether
    it is zero), and the file. *)
Definition dissect (path : list Z) : list Z * bool * list Z :=
  if eq_str path [47] || eq_str path [47; 46] || eq_str path [47; 46; 46] then ([], true, [])
  else
    match strrchr path 47 with
    | None => ([46], false, path)
    | Some p =>
        let file := tl p in
        if Z.of_nat (length file) =? 0 then (path, false, [])
        else if eq_str file [46] then (path, false, [])
        else if eq_str file [46; 46] then (path, false, [])
        else if Z.of_nat (length path) - Z.of_nat (length file) <=? 1 then ([], true, file)
        else (firstn (length path - length file) path, false, file)
    end.
(** src/diminuto_fs.c:358-490 diminuto_fs_canonicalize: what it returns, and the buffer. *)
Definition canonicalize (realpath : list Z -> option (list Z)) (path buffer : list Z) (size : Z) : option (Z * list Z) :=
  let plength := Z.of_nat (length path) in
  if plength >=? SIZE then Some (-1, buffer)
  else if plength =? 0 then Some (-1, buffer)
  else
    let '(path, root, file) := dissect path in
    match (if root then Some [] else realpath path) with
    | None => Some (-1, buffer)
    | Some prefix =>
        let xlength := Z.of_nat (length prefix) in
        if 1 + Z.of_nat (length file) + xlength >=? size then Some (-1, buffer)
        else
          let* buffer := overwrite buffer (prefix ++ [0]) in
          let* c := peek prefix (xlength - 1) in
          let* buffer := if negb (c =? 47) then strcat buffer [47] else Some buffer in
          let* buffer := strcat buffer file in
          Some (0, buffer)
    end.

(** inode(7). *)
Definition S_IFMT (mode : Z) : Z := Z.land mode 61440.
(** src/diminuto_fs.c:41-71 diminuto_fs_mode2type and
    inc/com/diag/diminuto/diminuto_fs.h:39-67 (the letters f d l c b p s). *)
Definition mode2type (mode : Z) : Z :=
  let f := S_IFMT mode in
  if f =? 32768 then 102
  else if f =? 16384 then 100
  else if f =? 40960 then 108
  else if f =? 8192 then 99
  else if f =? 24576 then 98
  else if f =? 4096 then 112
  else if f =? 49152 then 115
  else
    let mode := Z.shiftr f 12 in
    if (0 <=? mode) && (mode <=? 9) then 48 + mode
    else if (10 <=? mode) && (mode <=? 15) then 65 + mode - 10
    else 63.

(** src/diminuto_path.c:49-64: the loop, and 24-69 diminuto_path_scan: the string that is
    allocated, if any. [stat] tells whether there is an object of that path. *)
Fixpoint scan_loop (stat : list Z -> bool) (fuel : nat) (rest : list Z) (file : list Z) : option (option (list Z)) :=
  match fuel with
  | O => None
  | S fuel =>
      match strtok 58 rest 0 with
      | None => Some None
      | Some (prefix, _, rest, _) =>
          let candidate := prefix ++ [47] ++ file in
          if Z.of_nat (length candidate) >=? SIZE then Some None
          else if stat candidate then Some (Some candidate)
          else scan_loop stat fuel rest file
      end
  end.
Definition scan (stat : list Z -> bool) (string file : option (list Z)) : option (option (list Z)) :=
  match string, file with
  | Some string, Some file => scan_loop stat (S (length string)) string file
  | _, _ => Some None
  end.
(** src/diminuto_path.c:71-88 diminuto_path_find. *)
Definition find (getenv : list Z -> option (list Z)) (stat : list Z -> bool) (keyword file : option (list Z)) : option (option (list Z)) :=
  match keyword with
  | None => Some None
  | Some keyword => scan stat (getenv keyword) file
  end.
