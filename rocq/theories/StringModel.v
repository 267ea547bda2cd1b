(** Model of diminuto_string.c and diminuto_command.c. A C string in memory is a
    list of octets with a NUL (0) in it; [None] is an access outside of the object. *)

From Coq Require Import ZArith List Bool.
From Verif Require Import CInt.
Import ListNotations.
Local Open Scope Z_scope.

(** Storing an octet at an index of a buffer. *)
Fixpoint poke (l : list Z) (i : nat) (x : Z) : option (list Z) :=
  match l, i with
  | [], _ => None
  | _ :: r, O => Some (x :: r)
  | y :: r, S i => option_map (cons y) (poke r i x)
  end.

(** src/diminuto_string.c:17-29 diminuto_string_copy; the pointer returned is the
    destination. [d] is the offset dest has reached, [src] what src points to, and
    the fuel, the length of the source object, bounds the loop. *)
Fixpoint copy_loop (fuel : nat) (dest : list Z) (d : nat) (src : list Z) (n : Z) : option (list Z) :=
  if n >? 1 then
    match src with
    | [] => None
    | c :: src =>
        if negb (c =? 0) then
          match poke dest d c, fuel with
          | Some dest, S fuel => copy_loop fuel dest (S d) src (n - 1)
          | _, _ => None
          end
        else if n >? 0 then poke dest d 0 else Some dest
    end
  else if n >? 0 then poke dest d 0 else Some dest.
Definition string_copy (dest src : list Z) (n : Z) : option (list Z) :=
  copy_loop (length src) dest 0 src n.

(** strrchr of the C library: the suffix from the last occurrence. *)
Fixpoint strrchr (s : list Z) (c : Z) : option (list Z) :=
  match s with
  | [] => None
  | x :: r =>
      match strrchr r c with
      | Some p => Some p
      | None => if x =? c then Some s else None
      end
  end.

(** inc/com/diag/diminuto/diminuto_string.h:52-55 diminuto_string_basename, on
    the octets before the NUL. *)
Definition basename (argvzero : list Z) : list Z :=
  match strrchr argvzero 47 with None => argvzero | Some p => tl p end.

(** src/diminuto_command.c:15-32 diminuto_command_length. The argument vector is
    a list of strings (the octets before the NUL) or null pointers; the loop reads
    argc elements unless it finds a null pointer. size_t does not wrap: the sum of
    the lengths of objects in memory and their number is below 2^64. *)
Fixpoint length_loop (argc : nat) (index : Z) (argv : list (option (list Z))) (total : Z) : option Z :=
  match argc with
  | O => Some (total + 1)
  | S argc =>
      match argv with
      | [] => None
      | None :: _ => Some (total + 1)
      | Some s :: argv =>
          let total := if index >? 0 then total + 1 else total in
          length_loop argc (index + 1) argv (total + Z.of_nat (length s))
      end
  end.
Definition command_length (argc : nat) (argv : list (option (list Z))) : option Z :=
  length_loop argc 0 argv 0.

(** strncpy(here, s, length) where length is the length of s: just the octets of
    s, one after the other. *)
Fixpoint poke_all (l : list Z) (i : nat) (s : list Z) : option (list Z) :=
  match s with
  | [] => Some l
  | x :: s => match poke l i x with None => None | Some l => poke_all l (S i) s end
  end.

(** src/diminuto_command.c:34-74 diminuto_command_line: the buffer and the value
    returned. *)
Definition line_end (buf : list Z) (here : nat) (total : Z) : option (list Z * Z) :=
  option_map (fun buf => (buf, total + 1)) (poke buf here 0).
Fixpoint line_loop (argc : nat) (index : Z) (argv : list (option (list Z)))
    (buf : list Z) (here : nat) (limit total : Z) : option (list Z * Z) :=
  match argc with
  | O => line_end buf here total
  | S argc =>
      match argv with
      | [] => None
      | None :: _ => line_end buf here total
      | Some s :: argv =>
          let body (buf : list Z) (here : nat) (limit total : Z) :=
            let len := Z.of_nat (length s) in
            if len >? limit then line_end buf here total
            else match poke_all buf here s with
                 | None => None
                 | Some buf => line_loop argc (index + 1) argv buf (here + length s) (limit - len) (total + len)
                 end in
          if index <=? 0 then body buf here limit total
          else if 1 >? limit then line_end buf here total
          else match poke buf here 32 with
               | None => None
               | Some buf => body buf (S here) (limit - 1) (total + 1)
               end
      end
  end.
Definition command_line (argc : nat) (argv : list (option (list Z))) (buf : list Z) (size : Z) : option (list Z * Z) :=
  if size >? 0 then line_loop argc 0 argv buf 0 (size - 1) 0 else Some (buf, 0).
