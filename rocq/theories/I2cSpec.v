(** Specification for the bus. *)

From Coq Require Import ZArith List Bool.
From Verif Require Import I2cModel.
Import ListNotations.
Local Open Scope Z_scope.

(** What a call has to do, in order. *)
Inductive does : request -> list action -> Prop :=
| does_get a r n : does (Get a r n) [Use a; Write [r]; Read n]
| does_set a r d : does (Set_ a r d) [Use a; Write [r]; Write d]
| does_send a d : does (Send a d) [Use a; Write d]
| does_getset a r n d : does (GetSet a r n d) [Use a; Write [r]; Read n; Write d]
| does_setget a r d n : does (SetGet a r d n) [Use a; Write [r]; Write d; Read n].

(** A transaction of a thread: what has been done for a call, with the results; it is
    done as far as it works, and no more octets are moved than is asked for. *)
Record transaction := mktransaction { who : nat; what : request; done : list (action * Z) }.
Definition sensible (p : action * Z) : Prop :=
  snd p < 0 \/
  match fst p with
  | Use _ => True
  | Write d => 0 < snd p <= Z.of_nat (length d)
  | Read n => 0 < snd p <= n
  end.
Definition proper (t : transaction) : Prop :=
  Forall sensible (done t) /\
  exists actions, does (what t) actions /\
    exists rest, actions = map fst (done t) ++ rest /\
      forall before a r after, done t = before ++ (a, r) :: after -> r < 0 -> after = [].
(** It is over: all was done, or the last failed; and what the call then returns. *)
Definition over (t : transaction) (r : Z) : Prop :=
  (exists before a x, done t = before ++ [(a, x)] /\
     ((x < 0 /\ r = -1) \/ (0 <= x /\ does (what t) (map fst (done t)) /\ (x < 2 ^ 31 -> r = x)))).

(** What it leaves on the bus. *)
Definition trace (t : transaction) : list (nat * action * Z) := map (fun '(a, r) => (who t, a, r)) (done t).

(** Devices with registers: the first octet of a message that is written is the number of
    a register; octets then go to it and to those after it; octets are read from there
    on. What was selected is what messages go to. *)
Record device := mkdevice { pointer : Z; registers : Z -> Z }.
Record wires := mkwires { selected : Z; devices : Z -> device }.
Definition at_ {A} (f : Z -> A) (k : Z) (v : A) : Z -> A := fun x => if x =? k then v else f x.
Fixpoint puts (p : Z) (data : list Z) (f : Z -> Z) : Z -> Z :=
  match data with [] => f | x :: data => puts (p + 1) data (at_ f p x) end.
Fixpoint gets (n : nat) (p : Z) (f : Z -> Z) : list Z :=
  match n with O => [] | S n => f p :: gets n (p + 1) f end.
Definition message (d : device) (data : list Z) : device :=
  match data with
  | [] => d
  | p :: data => mkdevice (p + Z.of_nat (length data)) (puts p data (registers d))
  end.
(** An action that worked, and what was read. *)
Definition effect (w : wires) (a : action) : wires * list Z :=
  match a with
  | Use addr => (mkwires addr (devices w), [])
  | Write data => (mkwires (selected w) (at_ (devices w) (selected w) (message (devices w (selected w)) data)), [])
  | Read n =>
      let d := devices w (selected w) in
      (mkwires (selected w) (at_ (devices w) (selected w) (mkdevice (pointer d + n) (registers d))), gets (Z.to_nat n) (pointer d) (registers d))
  end.
Fixpoint effects (w : wires) (l : list action) : wires * list Z :=
  match l with
  | [] => (w, [])
  | a :: l => let '(w, x) := effect w a in let '(w, y) := effects w l in (w, x ++ y)
  end.
(** The calls of one thread among them. *)
Definition calls_of (i : nat) (l : list transaction) : list request :=
  map what (filter (fun t => Nat.eqb (who t) i) l).
Definition some {A} (o : option A) : list A := match o with Some x => [x] | None => [] end.
