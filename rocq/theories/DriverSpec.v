(** Specification for the driver: what an operation does to memory, told of each octet and
    each bit. *)

From Coq Require Import ZArith List Bool.
From Verif Require Import DriverModel.
Import ListNotations.
Local Open Scope Z_scope.

Section Spec.
Variables base length : Z.

(** An operation that can be done: a width that there is, at an address that is a multiple
    of it, no further than the length. *)
Definition possible (o : op) : Prop :=
  offset o <= length /\ In (width o) [1; 2; 4; 8] /\ (base + offset o) mod width o = 0.

(** The octet of a value that belongs to an address. *)
Definition octet_at (o : op) (d : datum) (a : Z) : Z := nth (Z.to_nat (a - (base + offset o))) d 0.
Definition within (o : op) (a : Z) : Prop := base + offset o <= a < base + offset o + width o.

(** What memory is then. *)
Definition becomes (c : call) (m m' : memory) : Prop :=
  let o := arg c in
  forall a,
    (within o a ->
     match cmd c with
     | WRITE => m' a = octet_at o (value o) a
     | SET => forall i, 0 <= i < 8 ->
         Z.testbit (m' a) i = Z.testbit (m a) i && negb (Z.testbit (octet_at o (mask o) a) i) || Z.testbit (octet_at o (value o) a) i
     | CLEAR => forall i, 0 <= i < 8 ->
         Z.testbit (m' a) i = Z.testbit (m a) i && negb (Z.testbit (octet_at o (value o) a) i)
     | _ => m' a = m a
     end) /\
    (~ within o a -> m' a = m a).
(** What the user has then: only reading changes that. *)
Definition gives (c : call) (m : memory) (user : op) : Prop :=
  let o := arg c in
  match cmd c with
  | READ => offset user = offset o /\ width user = width o /\ mask user = mask o /\
      forall k, (k < 8)%nat -> nth k (value user) 0 = if Z.of_nat k <? width o then m (base + offset o + Z.of_nat k) else nth k (value o) 0
  | _ => user = o
  end.

(** A call done all at once: either it works and does what it has to, or it fails and
    memory stays the same. *)
Definition works (c : call) : Prop :=
  possible (arg c) /\ readable c = true /\ In (cmd c) [READ; WRITE; SET; CLEAR] /\ (cmd c = READ -> writable c = true).
Definition atomic (c : call) (rc : Z) (user : op) (m m' : memory) : Prop :=
  (rc = 0 /\ works c /\ becomes c m m' /\ gives c m user) \/
  (rc < 0 /\ (rc = - 4 \/ ~ works c) /\ m' = m /\ user = arg c).

(** A list of calls with what they returned, done one after the other. *)
Inductive one_by_one : list (nat * call * Z * op) -> memory -> memory -> Prop :=
| one_none m : one_by_one [] m m
| one_more l i c rc user m m' m'' : one_by_one l m m' -> atomic c rc user m' m'' -> one_by_one (l ++ [(i, c, rc, user)]) m m''.
End Spec.

(** Calls of one thread. *)
Definition calls_of (i : nat) (l : list (nat * call * Z * op)) : list call :=
  map (fun '(_, c, _, _) => c) (filter (fun '(j, _, _, _) => Nat.eqb j i) l).

(** Values and masks have eight octets. *)
Definition sized (c : call) : Prop :=
  List.length (value (arg c)) = 8%nat /\ List.length (mask (arg c)) = 8%nat /\
  Forall (fun x => 0 <= x < 256) (value (arg c)) /\ Forall (fun x => 0 <= x < 256) (mask (arg c)).
