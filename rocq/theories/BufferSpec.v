(** Specification for the buffer pool: what the application may do and what it
    may rely on. *)

From Coq Require Import ZArith List Bool Sorting.Sorted.
From Verif Require Import CInt BufferModel.
Import ListNotations.
Local Open Scope Z_scope.

(** The application remembers the buffers it has: pointer and requested size. *)
Definition buffers := list (Z * Z).

Definition forget (live : buffers) (p : Z) : buffers := filter (fun x => negb (fst x =? p)) live.
Definition gained (live : buffers) (r n : Z) : buffers := if r =? 0 then live else (r, n) :: live.

(** The buffers after a call that returned [r]. *)
Definition after (live : buffers) (o : op) (r : Z) : buffers :=
  match o with
  | Malloc n _ => gained live r n
  | Free p => forget live p
  | Realloc p n _ => gained (forget live p) r n
  | Calloc k n _ => gained live r (k * n)
  | Strdup l _ => gained live r (Z.of_nat (length l) + 1)
  | Strndup l n _ => gained live r (Z.of_nat (Nat.min (length l) n) + 1)
  | _ => live
  end.

(** The largest size with which nothing wraps around. *)
Definition LIMIT : Z := 2 ^ 64 - 8.

(** What the application may do. *)
Definition permitted (live : buffers) (o : op) : Prop :=
  match o with
  | Malloc n _ => 0 <= n < LIMIT
  | Free p => p = 0 \/ exists n, In (p, n) live
  | Realloc p n _ => (p = 0 \/ exists n, In (p, n) live) /\ 0 <= n < LIMIT
  | Calloc k n _ => 0 <= k /\ 0 <= n /\ k * n < LIMIT
  | Strdup l _ => Z.of_nat (length l) + 1 < LIMIT
  | Strndup l n _ => Z.of_nat (Nat.min (length l) n) + 1 < LIMIT
  | Prealloc _ n _ => 0 <= n < LIMIT
  | Store p i v => exists n, In (p, n) live /\ 0 <= i < n
  | Fini | Nomalloc _ | Log => True
  end.

(** A history: what was called, with what result, and the states. *)
Inductive history (sizes : list Z) (s0 : st) : list (op * Z) -> st -> buffers -> Prop :=
  | H_init : history sizes s0 [] s0 []
  | H_step h s live o s' r :
      history sizes s0 h s live -> permitted live o -> step sizes s o = Some (s', r) ->
      history sizes s0 (h ++ [(o, r)]) s' (after live o r).

(** The sizes of a pool: increasing, as its documentation requires, with room for
    a header. *)
Definition pool_ok (sizes : list Z) : Prop :=
  StronglySorted Z.lt sizes /\ Forall (fun z => 0 <= z < LIMIT) sizes.

(** The size class of a request: the least size of the pool that is enough, or
    else the request itself. *)
Definition class (sizes : list Z) (n : Z) : Z :=
  match find (fun z => n <=? z) sizes with Some z => z | None => n end.

(** The octets [p, p + n) are in one of the blocks of the heap. *)
Definition allocated (s : st) (p n : Z) : Prop := exists b z, In (b, z) (heap s) /\ b <= p /\ p + n <= b + z.

Definition apart (p n q k : Z) : Prop := p + n <= q \/ q + k <= p.

(** The octets at [p] spell [l]. *)
Definition contains (s : st) (p : Z) (l : list Z) : Prop :=
  forall i, (i < length l)%nat -> mem s (p + Z.of_nat i) = nth i l 0.

(** The buffer a call is given, whose contents it may change. *)
Definition argument (o : op) : Z :=
  match o with Free p => p | Realloc p _ _ => p | Store p _ _ => p | _ => 0 end.

(** The octets in a list of blocks. *)
Definition total (l : list (Z * Z)) : Z := fold_right (fun x t => snd x + t) 0 l.

(** The blocks of the buffers an application has: eight octets more than the
    size class. *)
Definition in_use (sizes : list Z) (live : buffers) : list (Z * Z) :=
  map (fun x => (fst x - 8, class sizes (snd x) + 8)) live.

(** The underlying malloc fails to provide [n] octets. *)
Definition refused (s : st) (a : answer) (n : Z) : Prop :=
  match a with Some (b, _) => possible (heap s) b n = false | None => True end.
