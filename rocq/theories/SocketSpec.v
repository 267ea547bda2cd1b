(** Specification: making a socket either does everything asked for, in order, or
    stops at the first step that fails and closes the socket. *)

From Coq Require Import ZArith List Bool.
From Verif Require Import IpModel IpSpec SocketModel.
Import ListNotations.
Local Open Scope Z_scope.

(** The steps asked for, carried out on a descriptor. *)
Fixpoint carried_out (fd : Z) (steps : list call) (evs : list event) (rc : Z) : Prop :=
  match steps with
  | [] => evs = [] /\ rc = fd
  | c :: steps =>
      match evs with
      | [] => False
      | (c', answer) :: evs =>
          c' = c /\
          if answer <? 0 then rc < 0 /\ exists x, evs = [(Close fd, x)]
          else carried_out fd steps evs rc
      end
  end.
Definition made (socket : call) (steps : Z -> list call) (evs : list event) (rc : Z) : Prop :=
  match evs with
  | [] => False
  | (c, fd) :: evs => c = socket /\ if fd <? 0 then evs = [] /\ rc = -1 else carried_out fd (steps fd) evs rc
  end.

(** The steps. The injector comes first, so that it can set options before the socket
    has a name. *)
Definition injected (functionp : bool) (fd : Z) : list call := if functionp then [Inject fd] else [].
Definition device_of (i : list Z) (d : list Z) : Prop :=
  (i = [] /\ d = []) \/
  (i <> [] /\ length d = 16%nat /\ firstn (min 15 (length i)) d = firstn 15 i /\ Forall (eq 0) (skipn (min 15 (length i)) d)).
Definition on_device (interface : option (list Z)) (fd : Z) (cs : list call) : Prop :=
  match interface with None => cs = [] | Some i => exists d, device_of i d /\ cs = [Device fd d] end.

(** Names: the address and the port in network order; a path with its NULs. *)
Definition names4 (n : name) (address port : Z) : Prop :=
  exists a p, n = Inet (Inet4 a p) /\ length a = 4%nat /\ length p = 2%nat /\
    Forall (fun x => 0 <= x < 256) (a ++ p) /\ network a = address /\ network p = port.
Definition names6 (n : name) (address : ipv6) (port : Z) : Prop :=
  exists a p, n = Inet (Inet6 a p) /\ length a = 16%nat /\ length p = 2%nat /\
    Forall (fun x => 0 <= x < 256) (a ++ p) /\ network a = number6 address /\ network p = port.
Definition namesl (n : name) (path : list Z) : Prop := n = Local (path ++ repeat 0 (108 - length path)).

(** The descriptors that are open after events; close(2) closes even if it fails. *)
Fixpoint descriptors (open : list Z) (evs : list event) : list Z :=
  match evs with
  | [] => open
  | (Socket _ _, r) :: evs => descriptors (if r <? 0 then open else r :: open) evs
  | (Close fd, _) :: evs => descriptors (remove Z.eq_dec fd open) evs
  | _ :: evs => descriptors open evs
  end.

(** A new descriptor is not one that is open. *)
Definition fresh (k : kernel) : Prop :=
  forall h f d, 0 <= k h (Socket f d) -> ~ In (k h (Socket f d)) (descriptors [] h).

(** No descriptor leaks and none is lost: a result that is not negative is a descriptor
    that was not open, and it is the only new one; a negative one leaves open what was
    open. *)
Definition no_leak (m : M Z) : Prop := forall h rc evs, m h = (rc, evs) ->
  (0 <= rc /\ ~ In rc (descriptors [] h) /\ descriptors [] (h ++ evs) = rc :: descriptors [] h) \/
  (rc < 0 /\ descriptors [] (h ++ evs) = descriptors [] h).
