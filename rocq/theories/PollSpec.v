(** Specification for the poller. *)

From Coq Require Import ZArith List Bool.
From Verif Require Import MuxModel MuxSpec PollModel.
Import ListNotations.
Local Open Scope Z_scope.

(** What is registered, for each purpose, as for the multiplexer (MuxSpec); and whether a
    registered descriptor was closed, and nothing registered or unregistered since. *)
Inductive expected := PReturns (z : Z) | PWaits (g : registry) (ppoll : ppoll_t) (ticks : Z) | PAnything.
(** [None] is a program that waits when that is so; or one that runs out of memory. *)
Definition p_step (g : registry) (stale : bool) (o : pop) : option (registry * bool * expected) :=
  match o with
  | PRegister w fd =>
    if (0 <=? fd) && (fd <? 1024) && negb (mem fd (g w)) then Some (update g w (fd :: g w), false, PReturns fd) else Some (g, stale, PReturns (-1))
  | PUnregister w fd => if mem fd (g w) then Some (update g w (without fd (g w)), false, PReturns fd) else Some (g, stale, PReturns (-1))
  | PClose fd closed =>
    let known := existsb (fun w => mem fd (g w)) [READ; WRITE; ACCEPT; URGENT; INTERRUPT] in
    Some (fun w => without fd (g w), stale || known, PReturns (if closed <? 0 then -1 else if known then 0 else -2))
  | PWait memory ppoll ticks => if stale || negb memory then None else Some (g, stale, PWaits g ppoll ticks)
  | PReady _ => Some (g, stale, PAnything)
  end.
Fixpoint p_run (g : registry) (stale : bool) (ops : list pop) : option (registry * bool * list expected) :=
  match ops with
  | [] => Some (g, stale, [])
  | o :: ops =>
    match p_step g stale o with
    | None => None
    | Some (g', stale', e) => match p_run g' stale' ops with None => None | Some (g'', stale'', es) => Some (g'', stale'', e :: es) end
    end
  end.

(** The events a descriptor is registered for. *)
Definition wanted (g : registry) (fd : Z) : Z :=
  Z.lor (if mem fd (g READ) || mem fd (g ACCEPT) then POLLIN else 0) (Z.lor (if mem fd (g WRITE) then POLLOUT else 0) (if mem fd (g URGENT) || mem fd (g INTERRUPT) then POLLPRI else 0)).
Definition known (g : registry) (fd : Z) : Prop := exists w, In fd (g w).
(** A call that asks for exactly what is registered. (The system ignores negative ones.) *)
Definition asks_for (g : registry) (c : list (Z * Z)) : Prop :=
  (forall fd e, In (fd, e) c -> fd < 0 \/ known g fd /\ e = wanted g fd) /\
  (forall fd, known g fd -> In (fd, wanted g fd) c) /\
  NoDup (filter (fun fd => 0 <=? fd) (map fst c)).
(** A wait returns what the system does; one that asks for nothing and has no timeout
    does not ask. *)
Definition p_agrees (e : expected) (s : pseen) : Prop :=
  match e with
  | PReturns z => p_result s = z
  | PWaits g ppoll ticks => match p_called s with Some c => asks_for g c /\ p_result s = fst (ppoll c) | None => (ticks < 0 /\ forall fd, ~ known g fd) /\ p_result s = 0 end
  | PAnything => True
  end.

(** A ppoll(2) that reports only what it was asked for, or an error or a hang up, and
    nothing for descriptors that are negative; and for each of them. *)
Definition p_conforms (c : list (Z * Z)) (r : list Z) : Prop :=
  length r = length c /\
  forall fd e x, In ((fd, e), x) (combine c r) -> if fd <? 0 then x = 0 else subset x (Z.lor e (Z.lor POLLERR (Z.lor POLLHUP POLLNVAL))).
(** It reports the event of this purpose for this descriptor. *)
Definition p_reported (c : list (Z * Z)) (r : list Z) (w : which) (fd : Z) : bool :=
  existsb (fun '((f, _), x) => (f =? fd) && negb (Z.land x (event w) =? 0)) (combine c r).
(** In what order a round serves the descriptors that are registered and reported. *)
Definition p_served (g : registry) (w : which) (c : list (Z * Z)) (r : list Z) (p : Z) : list Z :=
  filter (fun fd => mem fd (g w) && p_reported c r w fd) (cyclic 0 1023 p).
Definition p_results (l : list Z) : list pseen := map (fun fd => PSeen fd None) l.

(** A program that uses descriptors for two purposes that are partners only in disjoint
    ranges, on a system that reports only what it was asked for. *)
Definition p_disciplined (ops : list pop) : Prop :=
  (forall w v lo fd hi, partner w = Some v -> In (PRegister w lo) ops -> In (PRegister w hi) ops -> In (PRegister v fd) ops -> ~ (lo <= fd <= hi)) /\
  (forall memory ppoll ticks, In (PWait memory ppoll ticks) ops -> forall c, p_conforms c (snd (ppoll c))).

(** For the examples: a system that reports these events, for what it is asked for. *)
Definition p_reports (l : list (Z * Z)) : ppoll_t :=
  fun c => (Z.of_nat (length l), map (fun '(fd, e) => if fd <? 0 then 0 else match find (fun '(f, _) => f =? fd) l with Some (_, x) => Z.land x (Z.lor e (Z.lor POLLERR (Z.lor POLLHUP POLLNVAL))) | None => 0 end) c).
(** Calls that neither register nor unregister, and take nothing from this purpose. *)
Definition p_leaves_alone (w : which) (o : pop) : Prop :=
  match o with PWait _ _ _ => True | PReady v => v <> w | _ => False end.
