(** Model of diminuto_buffer.c, diminuto_bufferpool.c and the private headers
    src/diminuto_buffer.h and src/diminuto_bufferpool.h.

    Memory is a function from addresses to octets, with the list of the blocks
    that malloc(3) handed out. Touching memory outside of these blocks, and
    freeing anything but such a block, is undefined behaviour: [None]. Words are
    eight octets, least significant first (the order does not matter here).

    Every function below the public API runs with the mutex held, and the public
    functions do nothing but call them, so that a history of public calls, from
    whatever threads, is a sequence of the steps of [step]. diminuto_buffer_realloc
    takes the mutex several times; between these it touches only the buffer of its
    caller and the one it just allocated. *)

From Coq Require Import ZArith List Bool.
From Verif Require Import CInt CUtil.
Import ListNotations.
Local Open Scope Z_scope.

Definition memory := Z -> Z.

Record st := St {
  mem : memory;
  heap : list (Z * Z);    (* the blocks allocated by malloc: base and size *)
  heads : list Z;         (* poolp->pool[] *)
  fail : bool             (* diminuto_buffer.c:30 *)
}.

(** A block contains the [n] octets at [p]. *)
Definition accessible (h : list (Z * Z)) (p n : Z) : bool :=
  existsb (fun '(b, z) => (b <=? p) && (p + n <=? b + z)) h.

Definition rd64 (m : memory) (p : Z) : Z :=
  m p + 256 * (m (p + 1) + 256 * (m (p + 2) + 256 * (m (p + 3) + 256 * (m (p + 4) +
  256 * (m (p + 5) + 256 * (m (p + 6) + 256 * m (p + 7))))))).
Definition wr64 (m : memory) (p v : Z) : memory := fun x =>
  if (p <=? x) && (x <? p + 8) then v / 256 ^ (x - p) mod 256 else m x.

Definition set_mem (s : st) (m : memory) : st := St m (heap s) (heads s) (fail s).
Definition set_heads (s : st) (l : list Z) : st := St (mem s) (heap s) l (fail s).

Definition load64 (s : st) (p : Z) : option Z :=
  if accessible (heap s) p 8 then Some (rd64 (mem s) p) else None.
Definition store64 (s : st) (p v : Z) : option st :=
  if accessible (heap s) p 8 then Some (set_mem s (wr64 (mem s) p v)) else None.

(** memcpy(3), memset(3) to zero, and the copy of a string into memory. *)
Definition memcpy (s : st) (dst src n : Z) : option st :=
  if accessible (heap s) dst n && accessible (heap s) src n then
    Some (set_mem s (fun x => if (dst <=? x) && (x <? dst + n) then mem s (x - dst + src) else mem s x))
  else None.
Definition memzero (s : st) (dst n : Z) : option st :=
  if accessible (heap s) dst n then
    Some (set_mem s (fun x => if (dst <=? x) && (x <? dst + n) then 0 else mem s x))
  else None.
Definition put_string (s : st) (dst : Z) (l : list Z) : option st :=
  let n := Z.of_nat (length l) in
  if accessible (heap s) dst n then
    Some (set_mem s (fun x => if (dst <=? x) && (x <? dst + n) then nth (Z.to_nat (x - dst)) l 0 else mem s x))
  else None.

(** malloc(3). The environment proposes an address and the contents the memory
    happens to have. A proposal is taken if it is a possible answer: a non null
    address aligned for every type, of memory that is not in a block already.
    Otherwise malloc fails. *)
Definition answer := option (Z * memory).
Definition possible (h : list (Z * Z)) (b n : Z) : bool :=
  (0 <? b) && (b mod 8 =? 0) && (b + n <=? 18446744073709551616) &&
  forallb (fun '(b', z') => (b + n <=? b') || (b' + z' <=? b)) h.
Definition malloc (s : st) (n : Z) (a : answer) : st * Z :=
  match a with
  | Some (b, contents) =>
    if possible (heap s) b n then
      (St (fun x => if (b <=? x) && (x <? b + n) then contents x else mem s x) ((b, n) :: heap s)
          (heads s) (fail s), b)
    else (s, 0)
  | None => (s, 0)
  end.

(** free(3). *)
Fixpoint release (h : list (Z * Z)) (b : Z) : option (list (Z * Z)) :=
  match h with
  | [] => None
  | (b', z') :: h' => if b' =? b then Some h' else let* r := release h' b in Some ((b', z') :: r)
  end.
Definition free (s : st) (b : Z) : option st :=
  let* h := release (heap s) b in Some (St (mem s) h (heads s) (fail s)).

(** src/diminuto_buffer.h:36-43: the header is one word (the zero length members
    only align), and so the payload begins eight octets after the buffer. *)
Definition HEADER : Z := 8.

(** diminuto_buffer.c:45-56 POOL. *)
Definition POOL : list Z := [8; 16; 32; 64; 128; 256; 512; 1024; 2048; 4096].

(** src/diminuto_bufferpool.h:46-60 buffer_pool_hash: the index and the total
    size. (The unsigned int of the result is wide enough for the index.) *)
Fixpoint hash_loop (sizes : list Z) (requested : Z) (item : nat) : nat * option Z :=
  match sizes with
  | [] => (item, None)
  | z :: sizes' => if z <? requested then hash_loop sizes' requested (S item) else (item, Some z)
  end.
Definition hash (sizes : list Z) (requested : Z) : nat * Z :=
  let '(item, z) := hash_loop sizes requested 0 in
  (item, u64 (match z with Some z => z | None => requested end + HEADER)).

(** src/diminuto_bufferpool.h:70-73 buffer_pool_effective. *)
Definition effective (sizes : list Z) (item : Z) : Z :=
  if item <? Z.of_nat (length sizes) then u64 (nth (Z.to_nat item) sizes 0 + HEADER) else item.

(** src/diminuto_bufferpool.h:82-85 buffer_pool_size. *)
Definition pool_size (sizes : list Z) (item : Z) : Z :=
  if item <? Z.of_nat (length sizes) then nth (Z.to_nat item) sizes 0 else u64 (item - HEADER).

(** src/diminuto_bufferpool.h:95-108 buffer_pool_malloc. *)
Definition buffer_pool_malloc (s : st) (size : Z) (nomalloc : bool) (a : answer) : st * Z :=
  if nomalloc then (s, 0) else malloc s size a.

(** Assignment to an element of an array. *)
Fixpoint upd {A} (l : list A) (n : nat) (x : A) : list A :=
  match l, n with
  | [], _ => []
  | _ :: l', O => x :: l'
  | y :: l', S n' => y :: upd l' n' x
  end.

(** src/diminuto_bufferpool.h:117-126 buffer_pool_get. *)
Definition buffer_pool_get (s : st) (item : nat) : option (st * Z) :=
  let* buffer := nth_error (heads s) item in
  if buffer =? 0 then Some (s, 0)
  else let* next := load64 s buffer in Some (set_heads s (upd (heads s) item next), buffer).

(** src/diminuto_bufferpool.h:135-139 buffer_pool_put. *)
Definition buffer_pool_put (s : st) (buffer : Z) (item : nat) : option st :=
  let* first := nth_error (heads s) item in
  let* s := store64 s buffer first in Some (set_heads s (upd (heads s) item buffer)).

(** src/diminuto_bufferpool.h:151-156 buffer_pool_init. *)
Definition buffer_pool_init (sizes : list Z) (s : st) (buffer : Z) (item : nat) (actual : Z) : option (st * Z) :=
  let* s := store64 s buffer (if (item <? length sizes)%nat then Z.of_nat item else actual) in
  Some (s, buffer + HEADER).

(** src/diminuto_bufferpool.h:166-169 buffer_pool_isexternal. *)
Definition isexternal (sizes : list Z) (item : Z) : bool := Z.of_nat (length sizes) <=? item.

(** diminuto_bufferpool.c:18-45 diminuto_buffer_pool_get. *)
Definition pool_get (sizes : list Z) (s : st) (size : Z) (nomalloc : bool) (a : answer) : option (st * Z) :=
  if size =? 0 then Some (s, 0) else
  let '(item, actual) := hash sizes size in
  let* '(s, buffer) :=
    if isexternal sizes (Z.of_nat item) then Some (buffer_pool_malloc s actual nomalloc a)
    else let* first := nth_error (heads s) item in
      if first =? 0 then Some (buffer_pool_malloc s actual nomalloc a)
      else buffer_pool_get s item in
  if buffer =? 0 then Some (s, 0) else buffer_pool_init sizes s buffer item actual.

(** diminuto_bufferpool.c:47-63 diminuto_buffer_pool_put. *)
Definition pool_put (sizes : list Z) (s : st) (ptr : Z) : option st :=
  if ptr =? 0 then Some s else
  let buffer := ptr - HEADER in
  let* item := load64 s buffer in
  if isexternal sizes item then free s buffer else buffer_pool_put s buffer (Z.to_nat item).

(** diminuto_bufferpool.c:65-77 diminuto_buffer_pool_free. The fuel is for the
    inner loop: [None] if it is not enough. *)
Fixpoint drain (fuel : nat) (s : st) (item : nat) : option st :=
  match fuel with
  | O => None
  | S fuel' =>
    let* '(s, buffer) := buffer_pool_get s item in
    if buffer =? 0 then Some s else let* s := free s buffer in drain fuel' s item
  end.
Fixpoint drain_from (fuel : nat) (count : nat) (s : st) (item : nat) : option st :=
  match count with
  | O => Some s
  | S count' => let* s := drain fuel s item in drain_from fuel count' s (S item)
  end.
Definition pool_free (sizes : list Z) (s : st) : option st :=
  drain_from (S (length (heap s))) (length sizes) s 0.

(** diminuto_bufferpool.c:79-106 diminuto_buffer_pool_prealloc. The i-th malloc
    gets the i-th answer. *)
Fixpoint prealloc_loop (s : st) (nmemb : nat) (item : nat) (actual total : Z) (a : nat -> answer) (i : nat)
    : option (st * Z) :=
  match nmemb with
  | O => Some (s, total)
  | S nmemb' =>
    let '(s, buffer) := buffer_pool_malloc s actual false (a i) in
    if buffer =? 0 then Some (s, total)
    else let* s := buffer_pool_put s buffer item in
      prealloc_loop s nmemb' item actual (u64 (total + actual)) a (S i)
  end.
Definition pool_prealloc (sizes : list Z) (s : st) (nmemb : nat) (size : Z) (a : nat -> answer) : option (st * Z) :=
  if size =? 0 then Some (s, 0)
  else if (nmemb =? 0)%nat then Some (s, 0)
  else let '(item, actual) := hash sizes size in
    if isexternal sizes (Z.of_nat item) then Some (s, 0)
    else prealloc_loop s nmemb item actual 0 a 0.

(** diminuto_bufferpool.c:108-139 diminuto_buffer_pool_log: the total it returns.
    [None] also if the fuel is not enough to walk a list. *)
Fixpoint count_free (fuel : nat) (s : st) (buffer : Z) : option Z :=
  match fuel with
  | O => None
  | S fuel' =>
    if buffer =? 0 then Some 0
    else let* next := load64 s buffer in let* n := count_free fuel' s next in Some (n + 1)
  end.
Fixpoint log_loop (s : st) (sizes : list Z) (hs : list Z) (total : Z) : option Z :=
  match sizes, hs with
  | z :: sizes', h :: hs' =>
    let* subcount := count_free (S (length (heap s))) s h in
    log_loop s sizes' hs' (u64 (total + u64 (subcount * u64 (z + HEADER))))
  | _, _ => Some total
  end.
Definition pool_log (sizes : list Z) (s : st) : option Z := log_loop s sizes (heads s) 0.

(** diminuto_buffer.c:66-89 diminuto_buffer_malloc. *)
Definition buffer_malloc (sizes : list Z) (s : st) (size : Z) (a : answer) : option (st * Z) :=
  if 0 <? size then pool_get sizes s size (fail s) a else Some (s, 0).

(** diminuto_buffer.c:91-106 diminuto_buffer_free. *)
Definition buffer_free (sizes : list Z) (s : st) (ptr : Z) : option st :=
  if ptr =? 0 then Some s else pool_put sizes s ptr.

(** diminuto_buffer.c:108-150 diminuto_buffer_realloc. *)
Definition buffer_realloc (sizes : list Z) (s : st) (ptr size : Z) (a : answer) : option (st * Z) :=
  if ptr =? 0 then buffer_malloc sizes s size a
  else if size =? 0 then let* s := buffer_free sizes s ptr in Some (s, 0)
  else
    let* item := load64 s (ptr - HEADER) in
    let actual := effective sizes item in
    let requested := snd (hash sizes size) in
    if actual =? requested then Some (s, ptr)
    else
      let* '(s, ptrprime) := buffer_malloc sizes s size a in
      let* s := if ptrprime =? 0 then Some s
        else let length := u64 (actual - HEADER) in memcpy s ptrprime ptr (if size <? length then size else length) in
      let* s := buffer_free sizes s ptr in
      Some (s, ptrprime).

(** diminuto_buffer.c:152-168 diminuto_buffer_calloc. *)
Definition buffer_calloc (sizes : list Z) (s : st) (nmemb size : Z) (a : answer) : option (st * Z) :=
  let length := u64 (nmemb * size) in
  let* '(s, ptr) := buffer_malloc sizes s length a in
  if ptr =? 0 then Some (s, 0) else let* s := memzero s ptr length in Some (s, ptr).

(** diminuto_buffer.c:174-186 diminuto_buffer_strdup of a string with the given
    octets before its NUL. The string is not in a buffer. *)
Definition buffer_strdup (sizes : list Z) (s : st) (l : list Z) (a : answer) : option (st * Z) :=
  let* '(s, ptr) := buffer_malloc sizes s (u64 (Z.of_nat (length l) + 1)) a in
  if ptr =? 0 then Some (s, 0) else let* s := put_string s ptr (l ++ [0]) in Some (s, ptr).

(** diminuto_buffer.c:188-201 diminuto_buffer_strndup. *)
Definition buffer_strndup (sizes : list Z) (s : st) (l : list Z) (n : nat) (a : answer) : option (st * Z) :=
  let k := Nat.min (length l) n in
  let* '(s, ptr) := buffer_malloc sizes s (u64 (Z.of_nat k + 1)) a in
  if ptr =? 0 then Some (s, 0)
  else let* s := put_string s ptr (firstn k l) in
    let* s := put_string s (ptr + Z.of_nat k) [0] in Some (s, ptr).

(** The public calls, and a store by the application into a buffer. *)
Inductive op :=
  | Malloc (size : Z) (a : answer)
  | Free (ptr : Z)
  | Realloc (ptr size : Z) (a : answer)
  | Calloc (nmemb size : Z) (a : answer)
  | Strdup (l : list Z) (a : answer)
  | Strndup (l : list Z) (n : nat) (a : answer)
  | Prealloc (nmemb : nat) (size : Z) (a : nat -> answer)
  | Fini
  | Nomalloc (after : bool)
  | Log
  | Store (ptr offset v : Z).

(** diminuto_buffer.c:207-282: fini, prealloc, log and nomalloc. The result is that
    of the call, 0 if it has none. *)
Definition step (sizes : list Z) (s : st) (o : op) : option (st * Z) :=
  match o with
  | Malloc size a => buffer_malloc sizes s size a
  | Free ptr => let* s := buffer_free sizes s ptr in Some (s, 0)
  | Realloc ptr size a => buffer_realloc sizes s ptr size a
  | Calloc nmemb size a => buffer_calloc sizes s nmemb size a
  | Strdup l a => buffer_strdup sizes s l a
  | Strndup l n a => buffer_strndup sizes s l n a
  | Prealloc nmemb size a => pool_prealloc sizes s nmemb size a
  | Fini => let* s := pool_free sizes s in Some (s, 0)
  | Nomalloc after => Some (St (mem s) (heap s) (heads s) after, if fail s then 1 else 0)
  | Log => let* t := pool_log sizes s in Some (s, t)
  | Store ptr offset v => let* s := put_string s (ptr + offset) [v] in Some (s, 0)
  end.

(** diminuto_buffer.c:58-60: nothing allocated, every list empty. *)
Definition init (sizes : list Z) (m : memory) : st := St m [] (repeat 0 (length sizes)) false.
