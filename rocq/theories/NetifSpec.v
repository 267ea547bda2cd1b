(** Specification for the lists of interfaces and addresses. *)

From Coq Require Import ZArith List Bool.
From Verif Require Import CInt IpModel IpSpec NetifModel.
Import ListNotations.
Local Open Scope Z_scope.

(** A list without what occurred before. *)
Fixpoint firsts (l : list (list Z)) : list (list Z) :=
  match l with
  | [] => []
  | x :: l => x :: filter (fun y => if list_eq_dec Z.eq_dec x y then false else true) (firsts l)
  end.

(** What the system tells: a string has its NUL at its end only, and an address its
    octets. *)
Definition entry_ok (e : ifaddrs) : Prop :=
  (forall s, fst e = Some s -> exists text, s = text ++ [0] /\ ~ In 0 text) /\
  (forall sa, snd e = Some sa -> sockaddr_ok sa).

(** The text of the name of an entry; only 255 octets of it count. *)
Definition text (e : ifaddrs) : option (list Z) :=
  match fst e with Some s => Some (firstn 255 (removelast s)) | None => None end.

(** The string that begins at an offset in memory. *)
Fixpoint until_nul (l : list Z) : option (list Z) :=
  match l with
  | [] => None
  | c :: l => if c =? 0 then Some [] else match until_nul l with Some s => Some (c :: s) | None => None end
  end.
Definition string_at (memory : list Z) (p : Z) : option (list Z) := until_nul (skipn (Z.to_nat p) memory).

(** The addresses of the entries that have a name. *)
Definition with_name (name : list Z) (e : ifaddrs) : bool :=
  match text e with Some s => if list_eq_dec Z.eq_dec s (firstn 255 name) then true else false | None => false end.
Definition four (e : ifaddrs) : option Z := match snd e with Some (Inet4 a _) => Some (network a) | _ => None end.
Definition six (e : ifaddrs) : option Z := match snd e with Some (Inet6 a _) => Some (network a) | _ => None end.

(** What a program reads from a list that ends with a zero. *)
Fixpoint read_list (l : list Z) : list Z :=
  match l with [] => [] | x :: l => if x =? 0 then [] else x :: read_list l end.

(** What the resolver tells: four octets each. *)
Definition host_ok (h : hostent) : Prop :=
  h_length h = 4 /\ Forall (fun a => length a = 4%nat /\ octets a) (h_addr_list h).
