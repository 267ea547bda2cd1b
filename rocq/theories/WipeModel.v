(** Model of bin/wipe.c: a utility that fills a device with a pattern and reads it back.
    All sizes are multiples of a word of eight octets: the sector size is rounded to such a
    multiple, and direct I/O is in sectors. So sizes and positions are in words here. *)

From Coq Require Import ZArith List Bool.
From Verif Require Import CInt CUtil.
Import ListNotations.

(** bin/wipe.c:100-101 and line 236. *)
Definition A1 : Z := 4294967311.
Definition A0 : Z := 17.
Definition next (datum : Z) : Z := u64 (datum * A1 + A0)%Z.

(** Rounding, bin/wipe.c:198-204, in octets. *)
Definition round (x unit_ : Z) : Z := ((x + unit_ - 1) / unit_ * unit_)%Z.

(** The loop that fills the buffer, lines 232-237: the words and what datum is then. *)
Fixpoint fill (count : nat) (datum : Z) : list Z * Z :=
  match count with
  | O => ([], datum)
  | S count => let '(l, d) := fill count (next datum) in (datum :: l, d)
  end.

(** What write(2) does: it takes some, or none, or there is no space, or it fails; and
    read(2): it gives as many, none at the end, or it fails. What they do depends on the
    position and the size in any way. *)
Inductive answer := Took (n : nat) | Nothing | NoSpace | Failed.

Definition put (cells : list Z) (position : nat) (data : list Z) : list Z :=
  firstn position cells ++ data ++ skipn (position + length data) cells.

Section Wipe.
Variables (write : nat -> nat -> answer) (read : nat -> nat -> option nat).
Variables (blocksize sectorsize : nat).

(** The loop that writes a block, lines 241-263: whether rc is positive, the device, the
    position, which is total, and the errors. *)
Fixpoint write_block (fuel : nat) (data : list Z) (size : nat) (rc : bool) (cells : list Z) (position errors : nat) : option (bool * list Z * nat * nat) :=
  match fuel with
  | O => None
  | S fuel =>
      if size =? 0 then Some (rc, cells, position, errors)
      else
        match write position size with
        | Took n => write_block fuel (skipn n data) (size - n) true (put cells position (firstn n data)) (position + n) errors
        | Nothing => Some (false, cells, position, errors)
        | Failed => Some (false, cells, position, S errors)
        | NoSpace =>
            if sectorsize <? size then write_block fuel data (size - sectorsize) false cells position errors
            else Some (false, cells, position, errors)
        end
  end.

(** The loop that writes all, lines 230-265. *)
Fixpoint write_all (fuel : nat) (datum : Z) (cells : list Z) (position errors : nat) : option (list Z * nat * nat) :=
  match fuel with
  | O => None
  | S fuel =>
      let '(data, datum) := fill blocksize datum in
      let* '(rc, cells, position, errors) := write_block (S blocksize) data blocksize true cells position errors in
      if (rc : bool) then write_all fuel datum cells position errors else Some (cells, position, errors)
  end.

(** The loop that reads a block, lines 304-323: whether rc is positive, what was read, the
    size left, the position and the errors. *)
Fixpoint read_block (fuel : nat) (cells : list Z) (size : nat) (rc : bool) (position errors : nat) : option (bool * list Z * nat * nat * nat) :=
  match fuel with
  | O => None
  | S fuel =>
      if size =? 0 then Some (rc, [], size, position, errors)
      else
        match read position size with
        | Some O => Some (false, [], size, position, errors)
        | Some n =>
            let* '(rc, more, remains, position', errors) := read_block fuel cells (size - n) true (position + n) errors in
            Some (rc, firstn n (skipn position cells) ++ more, remains, position', errors)
        | None => Some (false, [], size, position, S errors)
        end
  end.

(** The loop that compares, lines 331-340: datum, the errors, and the offsets reported, in
    words; total - (blocksize - size) + (count + 1) with count those that are left. *)
Fixpoint compare (words : list Z) (datum : Z) (base errors : nat) : Z * nat * list nat :=
  match words with
  | [] => (datum, errors, [])
  | x :: words =>
      let count := length words in
      if (x =? datum)%Z then compare words (next datum) base errors
      else let '(d, e, l) := compare words (next datum) base (S errors) in (d, e, base + (count + 1) :: l)
  end.

(** The loop that reads all, lines 300-342: the position, the errors and the offsets. *)
Fixpoint read_all (fuel : nat) (cells : list Z) (datum : Z) (position errors : nat) : option (nat * nat * list nat) :=
  match fuel with
  | O => None
  | S fuel =>
      let* '(rc, words, remains, position, errors) := read_block (S blocksize) cells blocksize true position errors in
      if remains =? blocksize then Some (position, errors, [])
      else
        let '(datum, errors, offsets) := compare words datum (position - (blocksize - remains)) errors in
        if (rc : bool) then
          let* '(position, errors, more) := read_all fuel cells datum position errors in Some (position, errors, offsets ++ more)
        else Some (position, errors, offsets)
  end.

(** main(), lines 219-374, as far as nothing else fails: the device, the words written,
    the words read, the errors and the offsets of mismatches. The exit status is 0 if and
    only if there are no errors. *)
Definition wipe (fuel : nat) (seed : Z) (cells : list Z) : option (list Z * nat * nat * nat * list nat) :=
  let* '(cells, written, errors) := write_all fuel seed cells 0 0 in
  let* '(total, errors, offsets) := read_all fuel cells seed 0 errors in
  Some (cells, written, total, if total =? written then errors else S errors, offsets).
End Wipe.
