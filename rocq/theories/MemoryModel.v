(** Model of the arithmetic of diminuto_memory.c. Not modelled: the queries of the
    page and cache line sizes (operating system calls). *)

From Coq Require Import ZArith List Bool.
From Verif Require Import CInt.
Import ListNotations.
Local Open Scope Z_scope.

(** The loop of diminuto_memory_power; size_t has 64 bits, so that 64 shifts
    make any value 0 and end it. [None] would be a loop that does not end. *)
Fixpoint power_loop (fuel : nat) (power alignment : Z) : option Z :=
  if (0 <? power) && (power <? alignment) then
    match fuel with
    | O => None
    | S fuel => power_loop fuel (u64 (Z.shiftl power 1)) alignment
    end
  else Some power.

(** src/diminuto_memory.c:131-140 diminuto_memory_power. *)
Definition power (alignment : Z) : option Z := power_loop 64 1 alignment.

(** The loop of diminuto_memory_is_power, which ends after 64 shifts. *)
Fixpoint is_power_loop (fuel : nat) (bits value : Z) : option Z :=
  if 0 <? value then
    match fuel with
    | O => None
    | S fuel => is_power_loop fuel (if negb (Z.land value 1 =? 0) then bits + 1 else bits) (Z.shiftr value 1)
    end
  else Some bits.

(** src/diminuto_memory.c:142-154 diminuto_memory_is_power. *)
Definition is_power (value : Z) : option bool := option_map (fun bits => bits =? 1) (is_power_loop 64 0 value).

(** inc/com/diag/diminuto/diminuto_memory.h:98-102 diminuto_memory_alignment. *)
Definition alignment (size align : Z) : Z :=
  let align := u64 (align - 1) in Z.land (u64 (size + align)) (u64 (Z.lnot align)).

(** sizeof(void * ) on a 64 bit target. *)
Definition pointer_size : Z := 8.

(** posix_memalign, outside the code: called with an alignment and a size, it
    returns an error number, and a pointer (0 is null). *)
Definition memalign_t := Z -> Z -> Z * Z.

(** src/diminuto_memory.c:156-188 diminuto_memory_aligned: the pointer returned,
    and errno if it was set. Not modelled: the log message. *)
Definition aligned (memalign : memalign_t) (align size : Z) : Z * option Z :=
  let align := alignment align pointer_size in
  let size := alignment size align in
  let '(rc, pointer) := memalign align size in
  if rc >? 0 then (0, Some rc)
  else if rc <? 0 then (0, Some (- rc))
  else if pointer =? 0 then (0, Some 14)
  else (pointer, None).
