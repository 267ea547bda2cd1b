(** Model of diminuto_ring.c and diminuto_ring.h. *)

From Coq Require Import ZArith List Bool.
From Verif Require Import CInt.
Import ListNotations.
Local Open Scope Z_scope.

(** inc/com/diag/diminuto/diminuto_ring.h:37-42, all fields uint32_t. *)
Record ring := Ring { capacity : Z; measure : Z; producer : Z; consumer : Z }.

(** inc diminuto_ring.h:53-59 and 71-78. *)
Definition init (cap : Z) : ring := Ring (u32 cap) 0 0 0.

(** inc diminuto_ring.h:98-100. *)
Definition used (r : ring) : Z := measure r.

(** inc diminuto_ring.h:107-109. *)
Definition free (r : ring) : Z := u32 (capacity r - measure r).

(** The remainder of two uint32_t; [None] is division by zero (undefined). *)
Definition rem32 (x y : Z) : option Z := if y =? 0 then None else Some (x mod y).

(** inc diminuto_ring.h:123-125. *)
Definition next (r : ring) (index : Z) : option Z := rem32 (u32 (index + 1)) (capacity r).

(** inc diminuto_ring.h:137-139. *)
Definition consumer_peek (r : ring) : Z := if 1 <=? measure r then s32 (consumer r) else -1.

(** diminuto_ring.c:15-26. *)
Definition producer_request (r : ring) (request : Z) : option (ring * Z) :=
  if u32 (measure r + request) <=? capacity r then
    match rem32 (u32 (producer r + request)) (capacity r) with
    | None => None
    | Some p => Some (Ring (capacity r) (u32 (measure r + request)) p (consumer r), s32 (producer r))
    end
  else Some (r, -1).

(** diminuto_ring.c:28-39. *)
Definition producer_revoke (r : ring) (request : Z) : option (ring * Z) :=
  if request <=? measure r then
    match rem32 (u32 (producer r + capacity r - request)) (capacity r) with
    | None => None
    | Some p => Some (Ring (capacity r) (u32 (measure r - request)) p (consumer r), s32 request)
    end
  else Some (r, -1).

(** diminuto_ring.c:41-52. *)
Definition consumer_request (r : ring) (request : Z) : option (ring * Z) :=
  if request <=? measure r then
    match rem32 (u32 (consumer r + request)) (capacity r) with
    | None => None
    | Some c => Some (Ring (capacity r) (u32 (measure r - request)) (producer r) c, s32 (consumer r))
    end
  else Some (r, -1).

(** diminuto_ring.c:54-65. *)
Definition consumer_revoke (r : ring) (request : Z) : option (ring * Z) :=
  if u32 (measure r + request) <=? capacity r then
    match rem32 (u32 (consumer r + capacity r - request)) (capacity r) with
    | None => None
    | Some c => Some (Ring (capacity r) (u32 (measure r + request)) (producer r) c, s32 request)
    end
  else Some (r, -1).

(** The four calls, and histories of them with their results. *)
Inductive call := Produce (n : Z) | ProduceRevoke (n : Z) | Consume (n : Z) | ConsumeRevoke (n : Z).

Definition apply (r : ring) (c : call) : option (ring * Z) :=
  match c with
  | Produce n => producer_request r n
  | ProduceRevoke n => producer_revoke r n
  | Consume n => consumer_request r n
  | ConsumeRevoke n => consumer_revoke r n
  end.

Fixpoint run (r : ring) (cs : list call) : option (ring * list Z) :=
  match cs with
  | [] => Some (r, [])
  | c :: cs =>
      match apply r c with
      | None => None
      | Some (r, x) => match run r cs with None => None | Some (r, xs) => Some (r, x :: xs) end
      end
  end.

(** How an application uses the ring to index an array of [T] (the use
    described in inc diminuto_ring.h:13-16; this client code is not in the library): it asks for
    slots, then steps through them with diminuto_ring_next. *)
Section Array.
  Context {T : Type}.

  Fixpoint store (r : ring) (mem : Z -> T) (index : Z) (xs : list T) : option (Z -> T) :=
    match xs with
    | [] => Some mem
    | x :: xs =>
        match next r index with
        | None => None
        | Some j => store r (fun k => if k =? index then x else mem k) j xs
        end
    end.

  Fixpoint load (r : ring) (mem : Z -> T) (index : Z) (n : nat) : option (list T) :=
    match n with
    | O => Some []
    | S n =>
        match next r index with
        | None => None
        | Some j => match load r mem j n with None => None | Some xs => Some (mem index :: xs) end
        end
    end.

  Inductive event := Put (xs : list T) | Get (n : nat).

  (** The effect of one event: what was accepted and what was fetched. *)
  Definition handle (r : ring) (mem : Z -> T) (e : event) : option (ring * (Z -> T) * list T * list T) :=
    match e with
    | Put xs =>
        match producer_request r (Z.of_nat (length xs)) with
        | None => None
        | Some (r, i) =>
            if i <? 0 then Some (r, mem, [], [])
            else match store r mem i xs with None => None | Some mem => Some (r, mem, xs, []) end
        end
    | Get n =>
        match consumer_request r (Z.of_nat n) with
        | None => None
        | Some (r, i) =>
            if i <? 0 then Some (r, mem, [], [])
            else match load r mem i n with None => None | Some xs => Some (r, mem, [], xs) end
        end
    end.

  (** A history: everything accepted and everything fetched, in order. *)
  Fixpoint session (r : ring) (mem : Z -> T) (es : list event) : option (ring * list T * list T) :=
    match es with
    | [] => Some (r, [], [])
    | e :: es =>
        match handle r mem e with
        | None => None
        | Some (r, mem, a, f) =>
            match session r mem es with
            | None => None
            | Some (r, a', f') => Some (r, a ++ a', f ++ f')
            end
        end
    end.
End Array.
Arguments event : clear implicits.
