(** Specification for the multiplexer. *)

From Coq Require Import ZArith List Bool.
From Verif Require Import MuxModel.
Import ListNotations.
Local Open Scope Z_scope.

(** What is registered, for each purpose. *)
Definition registry := which -> list Z.
Definition mem (fd : Z) (l : list Z) : bool := existsb (Z.eqb fd) l.
Definition update (g : registry) (w : which) (l : list Z) : registry := fun v => if which_eqb v w then l else g v.
Definition without (fd : Z) (l : list Z) : list Z := filter (fun x => negb (x =? fd)) l.
(** The purposes which pselect(2) does not tell apart. *)
Definition partner (w : which) : option which :=
  match w with READ => Some ACCEPT | ACCEPT => Some READ | URGENT => Some INTERRUPT | INTERRUPT => Some URGENT | WRITE => None end.
Definition shared (g : registry) (w : which) (fd : Z) : bool := match partner w with Some v => mem fd (g v) | None => false end.

(** What each call is expected to show: a result; or that it waits for what is
    registered at that time; or nothing in particular. *)
Inductive expect := Returns (z : Z) | Waits (g : registry) (ticks : Z) | Anything.
(** [None] is a program that unregisters for one purpose a descriptor which is also
    registered for the other that pselect does not tell apart from it. *)
Definition r_step (g : registry) (o : mop) : option (registry * expect) :=
  match o with
  | Register w fd =>
    if (0 <=? fd) && (fd <? 1024) && negb (mem fd (g w)) then Some (update g w (fd :: g w), Returns fd) else Some (g, Returns (-1))
  | Unregister w fd =>
    if mem fd (g w) then if shared g w fd then None else Some (update g w (without fd (g w)), Returns fd) else Some (g, Returns (-1))
  | Close fd closed =>
    Some (fun w => without fd (g w), Returns (if closed <? 0 then -1 else if existsb (fun w => mem fd (g w)) [READ; WRITE; ACCEPT; URGENT; INTERRUPT] then 0 else -2))
  | Wait _ ticks => Some (g, Waits g ticks)
  | _ => Some (g, Anything)
  end.
Fixpoint r_run (g : registry) (ops : list mop) : option (registry * list expect) :=
  match ops with
  | [] => Some (g, [])
  | o :: ops =>
    match r_step g o with
    | None => None
    | Some (g', e) => match r_run g' ops with None => None | Some (g'', es) => Some (g'', e :: es) end
    end
  end.
Definition nothing : registry := fun _ => [].

Definition set_is (s : fdset) (p : Z -> Prop) : Prop := forall fd, 0 <= fd -> Z.testbit s fd = true <-> p fd.
(** A call that waits for exactly what is registered: the number is one more than the
    greatest descriptor that is. *)
Definition waits_for (g : registry) (c : call) : Prop :=
  set_is (c_read c) (fun fd => In fd (g READ) \/ In fd (g ACCEPT)) /\
  set_is (c_write c) (fun fd => In fd (g WRITE)) /\
  set_is (c_except c) (fun fd => In fd (g URGENT) \/ In fd (g INTERRUPT)) /\
  (forall w fd, In fd (g w) -> 0 <= fd < c_nfds c) /\
  (c_nfds c = 0 \/ exists w, In (c_nfds c - 1) (g w)).
Definition agrees (e : expect) (s : seen) : Prop :=
  match e with
  | Returns z => result s = z
  | Waits g ticks => match called s with Some c => waits_for g c | None => ticks = 0 /\ forall w, g w = [] end
  | Anything => True
  end.
(** The bounds of the search are the least and the greatest descriptor registered. *)
Definition bounded (s : mset) (l : list Z) : Prop :=
  match l with
  | [] => max s < min s
  | _ => In (min s) l /\ In (max s) l /\ forall fd, In fd l -> min s <= fd <= max s
  end.

(** A pselect(2) that reports only what it was asked for. *)
Definition subset (a b : fdset) : Prop := forall fd, Z.testbit a fd = true -> Z.testbit b fd = true.
Definition conforms (c : call) (a : answer) : Prop := subset (a_read a) (c_read c) /\ subset (a_write a) (c_write c) /\ subset (a_except a) (c_except c).
(** What it reports, of those registered for a purpose. *)
Definition reported (a : answer) (w : which) : fdset := match w with READ | ACCEPT => a_read a | WRITE => a_write a | URGENT | INTERRUPT => a_except a end.

(** The descriptors from one to another. *)
Definition range (a b : Z) : list Z := map (fun i => a + Z.of_nat i) (seq 0 (Z.to_nat (b - a + 1))).
(** Those between [lo] and [hi], from [p] on, cyclically. *)
Definition cyclic (lo hi p : Z) : list Z := range p hi ++ range lo (p - 1).

(** In what order a round serves the descriptors that are registered for a purpose and
    reported ready: from [p] on, cyclically over all the descriptors there are. *)
Definition served (g : registry) (w : which) (a : answer) (p : Z) : list Z :=
  filter (fun fd => mem fd (g w) && Z.testbit (reported a w) fd) (cyclic 0 1023 p).
(** Nothing is reported between two descriptors registered for a purpose, that is not
    itself registered for that purpose. (It can only be one that is registered for its
    partner.) *)
Definition apart (g : registry) (w : which) (a : answer) : Prop :=
  forall lo fd hi, In lo (g w) -> In hi (g w) -> lo <= fd <= hi -> Z.testbit (reported a w) fd = true -> In fd (g w).
(** What a program sees of these results. *)
Definition results (l : list Z) : list seen := map (fun fd => Seen fd None) l.
(** Calls that neither register nor unregister, and take nothing from this purpose. *)
Definition leaves_alone (w : which) (o : mop) : Prop :=
  match o with Wait _ _ => True | Ready v => v <> w | _ => False end.

(** A program that uses descriptors for two purposes that are partners only in disjoint
    ranges, on a system that reports only what it was asked for. *)
Definition disciplined (ops : list mop) : Prop :=
  (forall w v lo fd hi, partner w = Some v -> In (Register w lo) ops -> In (Register w hi) ops -> In (Register v fd) ops -> ~ (lo <= fd <= hi)) /\
  (forall pselect ticks, In (Wait pselect ticks) ops -> forall c, conforms c (pselect c)).

(** A history of waits and takes, where every wait succeeds and reports [fd] for [w]. *)
Definition keeps_reporting (g : registry) (w : which) (fd : Z) (o : mop) : Prop :=
  match o with
  | Wait pselect _ => forall c, a_rc (pselect c) > 0 /\ Z.testbit (reported (pselect c) w) fd = true
  | Ready _ => True
  | _ => False
  end.
Definition takes (w : which) (o : mop) : bool := match o with Ready v => which_eqb v w | _ => false end.
(** What those that take for [w] returned. *)
Definition taken (w : which) (ops : list mop) (ss : list seen) : list Z := map (fun '(_, s) => result s) (filter (fun '(o, _) => takes w o) (combine ops ss)).

(** For the examples: a system that reports all of these, of what it is asked for; and
    one that fails, leaving the sets as they are. *)
Definition bits (l : list Z) : fdset := fold_right (fun fd s => Z.setbit s fd) 0 l.
Definition reports (l : list Z) : pselect_t := fun c => Answer (Z.of_nat (length l)) (Z.land (bits l) (c_read c)) (Z.land (bits l) (c_write c)) (Z.land (bits l) (c_except c)).
Definition fails : pselect_t := fun c => Answer (-1) (c_read c) (c_write c) (c_except c).
(** Descriptors that some wait of the history reported ready, given the registrations of
    the moment. *)
Definition ever_reported (w : which) (fd : Z) (ops : list mop) : Prop :=
  exists pselect ticks c, In (Wait pselect ticks) ops /\ a_rc (pselect c) > 0 /\ Z.testbit (reported (pselect c) w) fd = true.
