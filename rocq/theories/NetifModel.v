(** Model of the functions of diminuto_ipc.c, diminuto_ipc4.c and diminuto_ipc6.c that
    return lists in one allocated block: names of the interfaces, addresses of an
    interface, addresses of a host. getifaddrs(3), inet_aton(3) and gethostbyname(3) are
    arbitrary answers; malloc(3) works. [None] is undefined behaviour. The sizes do not
    wrap around: all that is added up is in memory. *)

From Coq Require Import ZArith List Bool.
From Verif Require Import CInt CUtil IpModel.
Import ListNotations.
Local Open Scope Z_scope.

(** struct ifaddrs: ifa_name, the octets of a string with its NUL, and ifa_addr. *)
Definition ifaddrs := (option (list Z) * option sockaddr)%type.

Definition NAME_MAX : nat := 255.

(** strnlen(3), strncmp(3): not beyond the end of what is in memory. *)
Fixpoint strnlen (n : nat) (s : list Z) : option Z :=
  match n, s with
  | O, _ => Some 0
  | S n, c :: s => if c =? 0 then Some 0 else let* k := strnlen n s in Some (1 + k)
  | S _, [] => None
  end.
Fixpoint strncmp (n : nat) (a b : list Z) : option Z :=
  match n, a, b with
  | O, _, _ => Some 0
  | S n, x :: a, y :: b =>
      if negb (x =? y) then Some (x - y) else if x =? 0 then Some 0 else strncmp n a b
  | S _, _, _ => None
  end.

(** * The names *)

(** The first loop, src/diminuto_ipc.c:315-320, vs and ns. *)
Fixpoint sizes (l : list ifaddrs) (vs ns : Z) : option (Z * Z) :=
  match l with
  | [] => Some (vs, ns)
  | (None, _) :: l => sizes l vs ns
  | (Some name, _) :: l =>
      let* k := strnlen NAME_MAX name in
      sizes l (vs + 8) (ns + (k + 1))
  end.

(** The loop over the names so far, lines 329-333: whether it ends before vp. The
    vector holds offsets into the area for the names. *)
Fixpoint known (name area : list Z) (vector : list Z) : option bool :=
  match vector with
  | [] => Some false
  | p :: vector =>
      let* c := strncmp NAME_MAX name (skipn (Z.to_nat p) area) in
      if c =? 0 then Some true else known name area vector
  end.

(** The second loop, lines 327-342; vp is where the vector ends, and np where the area
    does. Pointers are stored within vs octets and names within ns octets only. *)
Fixpoint names (l : list ifaddrs) (vs ns : Z) (vector area : list Z) : option (list Z * list Z) :=
  match l with
  | [] => Some (vector, area)
  | (None, _) :: l => names l vs ns vector area
  | (Some name, _) :: l =>
      let* k := known name area vector in
      if k then names l vs ns vector area
      else if negb (8 * (Z.of_nat (length vector) + 1) <=? vs) then None
      else
        let* n := strnlen NAME_MAX name in
        if negb (Z.of_nat (length area) + n + 1 <=? ns) then None
        else names l vs ns (vector ++ [Z.of_nat (length area)]) (area ++ firstn (Z.to_nat n) name ++ [0])
  end.

(** diminuto_ipc_interfaces(), src/diminuto_ipc.c:296-357: a null pointer, or the
    pointers in the block, the null one included, and the rest of it. *)
Definition interfaces (answer : option (list ifaddrs)) : option (option (list (option Z) * list Z)) :=
  match answer with
  | None => Some None
  | Some l =>
      let* '(vs, ns) := sizes l 8 0 in
      let* '(vector, area) := names l vs ns [] [] in
      if negb (8 * (Z.of_nat (length vector) + 1) <=? vs) then None
      else Some (Some (map Some vector ++ [None], area))
  end.

(** * The addresses of an interface *)

(** The conditions, src/diminuto_ipc4.c:245-255 and 262-272: the octets of the address
    of an entry that counts. *)
Definition entry4 (interface : list Z) (e : ifaddrs) : option (option (list Z)) :=
  match e with
  | (Some name, Some (Inet4 address _)) =>
      let* c := strncmp NAME_MAX name interface in
      Some (if c =? 0 then Some address else None)
  | _ => Some None
  end.
(** The same, src/diminuto_ipc6.c:376-386 and 393-403. *)
Definition entry6 (interface : list Z) (e : ifaddrs) : option (option (list Z)) :=
  match e with
  | (Some name, Some (Inet6 address _)) =>
      let* c := strncmp NAME_MAX name interface in
      Some (if c =? 0 then Some address else None)
  | _ => Some None
  end.

(** The first loop: octets for the vector, [width] each. *)
Fixpoint measure (entry : ifaddrs -> option (option (list Z))) (width : Z) (l : list ifaddrs) (vs : Z) : option Z :=
  match l with
  | [] => Some vs
  | e :: l => let* a := entry e in measure entry width l (match a with Some _ => vs + width | None => vs end)
  end.
(** The second loop. *)
Fixpoint store {A} (entry : ifaddrs -> option (option (list Z))) (width : Z) (host : list Z -> A) (l : list ifaddrs) (vs : Z) (vector : list A)
    : option (list A) :=
  match l with
  | [] => Some vector
  | e :: l =>
      let* a := entry e in
      match a with
      | None => store entry width host l vs vector
      | Some a =>
          if negb (width * (Z.of_nat (length vector) + 1) <=? vs) then None
          else store entry width host l vs (vector ++ [host a])
      end
  end.

(** diminuto_ipc4_interface(), src/diminuto_ipc4.c:226-282: a null pointer, or the
    block. *)
Definition interface4 (le : bool) (answer : option (list ifaddrs)) (interface : list Z) : option (option (list Z)) :=
  match answer with
  | None => Some None
  | Some l =>
      let* vs := measure (entry4 interface) 4 l 4 in
      let* vector := store (entry4 interface) 4 (fun a => ntohl le (load32 le a)) l vs [] in
      if negb (4 * (Z.of_nat (length vector) + 1) <=? vs) then None else Some (Some (vector ++ [0]))
  end.

(** diminuto_ipc6_interface(), src/diminuto_ipc6.c:357-419. *)
Definition interface6 (le : bool) (answer : option (list ifaddrs)) (interface : list Z) : option (option (list ipv6)) :=
  match answer with
  | None => Some None
  | Some l =>
      let* vs := measure (entry6 interface) 16 l 16 in
      let* vector := store (entry6 interface) 16 (fun a => ntoh6 le (load6 le a)) l vs [] in
      if negb (16 * (Z.of_nat (length vector) + 1) <=? vs) then None else Some (Some (vector ++ [UNSPECIFIED6]))
  end.

(** * The addresses of a host *)

(** struct hostent: whether h_addrtype is AF_INET, h_length, and h_addr_list. *)
Record hostent := mkhostent { inet : bool; h_length : Z; h_addr_list : list (list Z) }.

(** memset(3) and memcpy(3) of the smaller of h_length and four octets, then ntohl(3);
    a negative length becomes a huge size_t. *)
Definition inaddr (le : bool) (h_length : Z) (a : list Z) : option Z :=
  let n := if h_length <? 4 then u64 h_length else 4 in
  if (n <=? 4) && (n <=? Z.of_nat (length a)) then
    let copied := firstn (Z.to_nat n) a in
    Some (ntohl le (load32 le (copied ++ repeat 0 (4 - length copied))))
  else None.

Fixpoint hosts (le : bool) (h_length : Z) (l : list (list Z)) : option (list Z) :=
  match l with
  | [] => Some []
  | a :: l => let* x := inaddr le h_length a in let* r := hosts le h_length l in Some (x :: r)
  end.

(** diminuto_ipc4_addresses(), src/diminuto_ipc4.c:88-123; [aton] is what inet_aton(3)
    makes of the name, and [host] what gethostbyname(3) does. *)
Definition addresses4 (le : bool) (aton : option (list Z)) (host : option hostent) : option (option (list Z)) :=
  match aton, host with
  | Some a, _ => Some (Some [ntohl le (load32 le a); 0])
  | None, None => Some None
  | None, Some h =>
      if negb (inet h) then Some None
      else match h_addr_list h with
           | [] => Some None
           | l => let* r := hosts le (h_length h) l in Some (Some (r ++ [0]))
           end
  end.

(** diminuto_ipc4_address(), src/diminuto_ipc4.c:125-145: memcpy(3) from a null pointer
    if the list is empty. *)
Definition address4 (le : bool) (aton : option (list Z)) (host : option hostent) : option Z :=
  match aton, host with
  | Some a, _ => Some (ntohl le (load32 le a))
  | None, None => Some 0
  | None, Some h =>
      if negb (inet h) then Some 0
      else match h_addr_list h with
           | [] => None
           | a :: _ => inaddr le (h_length h) a
           end
  end.
