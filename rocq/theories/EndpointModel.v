(** Model of diminuto_ipc_endpoint.c. Name resolution (diminuto_ipc4_address,
    diminuto_ipc6_address), service names (diminuto_ipc_port), canonical paths
    (diminuto_ipcl_path) and the printing of addresses are arguments. Not modelled: log
    output, errno. *)

From Coq Require Import ZArith List Bool Arith.
From Verif Require Import CInt CUtil IpModel.
Import ListNotations.
Local Open Scope Z_scope.

(** ** The parser *)

(** Characters, as src/diminuto_ipc_endpoint.c compares them. *)
Definition is_digit (c : Z) : bool := (48 <=? c) && (c <=? 57).
Definition is_letter (c : Z) : bool := ((97 <=? c) && (c <=? 122)) || ((65 <=? c) && (c <=? 90)).
Definition is_hex (c : Z) : bool := ((97 <=? c) && (c <=? 102)) || ((65 <=? c) && (c <=? 70)).
Definition TAB := 9. Definition SPACE := 32. Definition HYPHEN := 45. Definition PERIOD := 46.
Definition SLASH := 47. Definition COLON := 58. Definition OPENS := 91. Definition CLOSES := 93.

(** inc/com/diag/diminuto/diminuto_types.h:106: the size of [buffer]. *)
Definition SIZE : Z := 4096.

(** src/diminuto_ipc_endpoint.c:81-96 state_t ([S_IPV4] is not used). *)
Inductive state := S_START | S_DIGIT | S_PERIOD | S_LETTER | S_COLON | S_IPV6 | S_PORT | S_FQDN | S_SERVICE | S_NEXT | S_PATH | S_STOP.

(** src/diminuto_ipc_endpoint.c:100-114: the variables of the parser; pointers into [buffer]
    are offsets, and [None] is the null pointer. *)
Record parser := Parser {
  st : state; here : nat; mark : option nat;
  p_name : option nat; p_fqdn : option nat; p_ipv4 : option nat; p_ipv6 : option nat; p_port : option nat; p_service : option nat; p_path : option nat;
  f_ipv4 : bool; f_ipv6 : bool; buf : list Z; rc : Z }.
Definition with_st (p : parser) (s : state) : parser := Parser s (here p) (mark p) (p_name p) (p_fqdn p) (p_ipv4 p) (p_ipv6 p) (p_port p) (p_service p) (p_path p) (f_ipv4 p) (f_ipv6 p) (buf p) (rc p).
Definition with_mark (p : parser) : parser := Parser (st p) (here p) (Some (here p)) (p_name p) (p_fqdn p) (p_ipv4 p) (p_ipv6 p) (p_port p) (p_service p) (p_path p) (f_ipv4 p) (f_ipv6 p) (buf p) (rc p).
Definition with_next (p : parser) : parser := Parser (st p) (S (here p)) (mark p) (p_name p) (p_fqdn p) (p_ipv4 p) (p_ipv6 p) (p_port p) (p_service p) (p_path p) (f_ipv4 p) (f_ipv6 p) (buf p) (rc p).
Definition with_nul (p : parser) : parser := Parser (st p) (here p) (mark p) (p_name p) (p_fqdn p) (p_ipv4 p) (p_ipv6 p) (p_port p) (p_service p) (p_path p) (f_ipv4 p) (f_ipv6 p) (firstn (here p) (buf p) ++ 0 :: skipn (S (here p)) (buf p)) (rc p).
Definition with_ok (p : parser) : parser := Parser S_STOP (here p) (mark p) (p_name p) (p_fqdn p) (p_ipv4 p) (p_ipv6 p) (p_port p) (p_service p) (p_path p) (f_ipv4 p) (f_ipv6 p) (buf p) 0.
Definition set_name (p : parser) : parser := Parser (st p) (here p) (mark p) (mark p) (p_fqdn p) (p_ipv4 p) (p_ipv6 p) (p_port p) (p_service p) (p_path p) (f_ipv4 p) (f_ipv6 p) (buf p) (rc p).
Definition set_fqdn (p : parser) : parser := Parser (st p) (here p) (mark p) (p_name p) (mark p) (p_ipv4 p) (p_ipv6 p) (p_port p) (p_service p) (p_path p) (f_ipv4 p) (f_ipv6 p) (buf p) (rc p).
Definition set_ipv4 (p : parser) : parser := Parser (st p) (here p) (mark p) (p_name p) (p_fqdn p) (mark p) (p_ipv6 p) (p_port p) (p_service p) (p_path p) true (f_ipv6 p) (buf p) (rc p).
Definition set_ipv6 (p : parser) : parser := Parser (st p) (here p) (mark p) (p_name p) (p_fqdn p) (p_ipv4 p) (mark p) (p_port p) (p_service p) (p_path p) (f_ipv4 p) true (buf p) (rc p).
Definition set_port (p : parser) : parser := Parser (st p) (here p) (mark p) (p_name p) (p_fqdn p) (p_ipv4 p) (p_ipv6 p) (mark p) (p_service p) (p_path p) (f_ipv4 p) (f_ipv6 p) (buf p) (rc p).
Definition set_service (p : parser) : parser := Parser (st p) (here p) (mark p) (p_name p) (p_fqdn p) (p_ipv4 p) (p_ipv6 p) (p_port p) (mark p) (p_path p) (f_ipv4 p) (f_ipv6 p) (buf p) (rc p).
Definition set_path (p : parser) : parser := Parser (st p) (here p) (mark p) (p_name p) (p_fqdn p) (p_ipv4 p) (p_ipv6 p) (p_port p) (p_service p) (mark p) (f_ipv4 p) (f_ipv6 p) (buf p) (rc p).

(** src/diminuto_ipc_endpoint.c:138-370: one turn of the loop, on the character [c] at
    [here]. *)
Definition turn (p : parser) (c : Z) : parser :=
  match st p with
  (* 140-175 *)
  | S_START =>
    if (c =? SPACE) || (c =? TAB) then with_next p
    else if c =? COLON then with_st (with_next p) S_COLON
    else if c =? OPENS then with_st (with_mark (with_next p)) S_IPV6
    else if is_digit c then with_st (with_next (with_mark p)) S_DIGIT
    else if is_letter c then with_st (with_next (with_mark p)) S_LETTER
    else if c =? SLASH then with_st (with_next (with_mark p)) S_PATH
    else if c =? PERIOD then with_st (with_next (with_mark p)) S_PATH
    else if c =? 0 then with_ok (set_path (with_mark p))
    else with_next (with_mark p)
  (* 177-199 *)
  | S_DIGIT =>
    if c =? PERIOD then with_st (with_next p) S_PERIOD
    else if c =? HYPHEN then with_st (with_next p) S_LETTER
    else if is_digit c then with_next p
    else if is_letter c then with_st (with_next p) S_LETTER
    else if c =? SLASH then with_st (with_next p) S_PATH
    else if c =? 0 then with_ok (set_port p)
    else with_st p S_STOP
  (* 201-226 *)
  | S_PERIOD =>
    if c =? PERIOD then with_next p
    else if c =? HYPHEN then with_st (with_next p) S_FQDN
    else if c =? COLON then with_st (with_next (with_nul (set_ipv4 p))) S_COLON
    else if is_digit c then with_next p
    else if is_letter c then with_st (with_next p) S_LETTER
    else if c =? 0 then with_ok (set_ipv4 p)
    else with_st p S_STOP
  (* 228-254 *)
  | S_LETTER =>
    if c =? PERIOD then with_st (with_next p) S_FQDN
    else if c =? HYPHEN then with_st (with_next p) S_FQDN
    else if c =? COLON then with_st (with_next (with_nul (set_fqdn p))) S_COLON
    else if is_digit c then with_next p
    else if is_letter c then with_next p
    else if c =? SLASH then with_st (with_next p) S_PATH
    else if c =? 0 then with_ok (set_name p)
    else with_st p S_STOP
  (* 256-280 *)
  | S_FQDN =>
    if c =? HYPHEN then with_next p
    else if c =? PERIOD then with_next p
    else if is_digit c then with_next p
    else if is_letter c then with_next p
    else if c =? COLON then with_st (set_fqdn (with_next (with_nul p))) S_COLON
    else if c =? SLASH then with_st (with_next p) S_PATH
    else if c =? 0 then with_ok (set_fqdn p)
    else with_st p S_STOP
  (* 282-299 *)
  | S_IPV6 =>
    if c =? CLOSES then with_st (set_ipv6 (with_next (with_nul p))) S_NEXT
    else if c =? COLON then with_next p
    else if c =? PERIOD then with_next p
    else if is_digit c then with_next p
    else if is_hex c then with_next p
    else with_st p S_STOP
  (* 301-311 *)
  | S_NEXT =>
    if c =? COLON then with_st (with_next p) S_COLON
    else if c =? 0 then with_ok p
    else with_st p S_STOP
  (* 313-328 *)
  | S_COLON =>
    if is_digit c then with_st (with_next (with_mark p)) S_PORT
    else if is_letter c then with_st (with_next (with_mark p)) S_SERVICE
    else if c =? 0 then with_ok p
    else with_st p S_STOP
  (* 330-340 *)
  | S_PORT =>
    if is_digit c then with_next p
    else if c =? 0 then with_ok (set_port p)
    else with_st p S_STOP
  (* 342-354 *)
  | S_SERVICE =>
    if is_digit c then with_next p
    else if is_letter c then with_next p
    else if c =? 0 then with_ok (set_service p)
    else with_st p S_STOP
  (* 356-364 *)
  | S_PATH => if c =? 0 then with_ok (set_path p) else with_next p
  (* 366-368 *)
  | S_STOP => with_st p S_STOP
  end.

(** src/diminuto_ipc_endpoint.c:132-372: the loop, for at most [fuel] turns. It may read
    outside the buffer; or it may not have ended. *)
Inductive outcome := Stopped (p : parser) | OutOfBounds | OutOfFuel.
Fixpoint loop (fuel : nat) (p : parser) : outcome :=
  match fuel with
  | O => OutOfFuel
  | S fuel =>
    match nth_error (buf p) (here p) with
    | None => OutOfBounds
    | Some c => let p := turn p c in match st p with S_STOP => Stopped p | _ => loop fuel p end
    end
  end.

(** strncpy(3) of the string into [buffer], which it fills up with NULs. A string is the list
    of its characters, without the NUL. *)
Definition strncpy (size : Z) (s : list Z) : list Z := firstn (Z.to_nat size) s ++ repeat 0 (Z.to_nat size - length s).
Definition begin (s : list Z) : parser := Parser S_START 0 None None None None None None None None false false (strncpy SIZE s) (-1).

(** The string at an offset of a buffer: up to a NUL. [None]: there is none. *)
Fixpoint string_at (b : list Z) : option (list Z) :=
  match b with
  | [] => None
  | c :: b => if c =? 0 then Some [] else option_map (cons c) (string_at b)
  end.

(** What is spelled. *)
Record parts := Parts { name : option (list Z); fqdn : option (list Z); ipv4 : option (list Z); ipv6 : option (list Z); port : option (list Z); service : option (list Z); path : option (list Z) }.
Definition fetch (b : list Z) (o : option nat) : option (option (list Z)) :=
  match o with
  | None => Some None
  | Some n => let* l := string_at (skipn n b) in Some (Some l)
  end.
Definition fetch_all (p : parser) : option parts :=
  let* name := fetch (buf p) (p_name p) in
  let* fqdn := fetch (buf p) (p_fqdn p) in
  let* ipv4 := fetch (buf p) (p_ipv4 p) in
  let* ipv6 := fetch (buf p) (p_ipv6 p) in
  let* port := fetch (buf p) (p_port p) in
  let* service := fetch (buf p) (p_service p) in
  let* path := fetch (buf p) (p_path p) in
  Some (Parts name fqdn ipv4 ipv6 port service path).

(** ** The endpoint *)

Inductive kind := UNSPECIFIED | IPV4 | IPV6 | LOCAL.
Record endpoint := Endpoint { type : kind; address4 : Z; address6 : IpModel.ipv6; tcp : Z; udp : Z; local : list Z }.
(** src/diminuto_ipc_endpoint.c:119-124 *)
Definition blank : endpoint := Endpoint UNSPECIFIED 0 UNSPECIFIED6 0 0 [].

(** The functions that are arguments: of src/diminuto_ipc4.c:122, src/diminuto_ipc6.c,
    src/diminuto_ipc.c:44 (true for tcp), and src/diminuto_ipcl.c:95. *)
Record resolver := Resolver { resolve4 : list Z -> Z; resolve6 : list Z -> IpModel.ipv6; resolve_port : list Z -> bool -> Z; resolve_path : list Z -> option (list Z) }.

(** atoi(3) of a string of digits: undefined if it is not an int. *)
Definition atoi (l : list Z) : option Z := ck_s32 (fold_left (fun n c => 10 * n + (c - 48)) l 0).

(** src/diminuto_ipc_endpoint.c:388-580: what is spelled becomes an endpoint. [le] is the
    order of octets, [global] the value of diminuto_ipc_endpoint_ipv6, [preference] the
    last argument. *)
Definition resolve (le : bool) (r : resolver) (global : bool) (preference : kind) (c : parts) (is4 is6 : bool) : option (Z * endpoint) :=
  (* 398-417 *)
  let '(rc, a4, a6, is4, is6) :=
    match fqdn c, ipv6 c, ipv4 c with
    | Some h, _, _ =>
      let a4 := resolve4 r h in let a6 := resolve6 r h in
      if negb (is_unspecified6 le a6) then (0, a4, a6, is4, true)
      else if negb (is_unspecified a4) then (0, a4, a6, true, is6)
      else (-2, a4, a6, is4, is6)
    | None, Some h, _ => (0, 0, resolve6 r h, is4, true)
    | None, None, Some h => (0, resolve4 r h, UNSPECIFIED6, true, is6)
    | None, None, None => (0, 0, UNSPECIFIED6, is4, is6)
    end in
  (* 427-458 *)
  let '(rc, a4, a6, t, u) :=
    match fqdn c, ipv4 c, ipv6 c, name c with
    | None, None, None, Some h =>
      let a4 := resolve4 r h in let a6 := resolve6 r h in
      match service c, port c with
      | None, None =>
        if negb (is_unspecified6 le a6) || negb (is_unspecified a4) then (rc, a4, a6, 0, 0)
        else
          let t := resolve_port r h true in let u := resolve_port r h false in
          if negb (t =? 0) || negb (u =? 0) then (rc, a4, a6, t, u) else (-3, a4, a6, t, u)
      | _, _ => (rc, a4, a6, 0, 0)
      end
    | _, _, _, _ => (rc, a4, a6, 0, 0)
    end in
  (* 467-483 *)
  let* '(rc, t, u) :=
    match service c, port c with
    | Some s, _ =>
      let t := resolve_port r s true in let u := resolve_port r s false in
      if negb (t =? 0) || negb (u =? 0) then Some (rc, t, u) else Some (-4, t, u)
    | None, Some n => let* n := atoi n in Some (rc, u16 n, u16 n)
    | None, None => Some (rc, t, u)
    end in
  (* 501-511 *)
  let '(rc, l, isl) :=
    match path c with
    | None => (rc, [], false)
    | Some [] => (rc, [], true)
    | Some s => match resolve_path r s with Some l => (rc, l, true) | None => (-5, [], false) end
    end in
  (* 518-522 *)
  if rc <? 0 then Some (rc, Endpoint UNSPECIFIED a4 a6 t u l) else
  (* 532-563 *)
  let chosen := match preference with IPV4 => (true, false) | IPV6 => (false, true) | _ => (negb global, global) end in
  let '(is4, is6) :=
    if negb (is_unspecified6 le a6) then
      if is_unspecified a4 then (false, true)
      else if is_v4mapped le a6 then (true, false)
      else chosen
    else if negb (is_unspecified a4) then (true, false)
    else if negb (Bool.eqb is4 is6) then (is4, is6)
    else chosen in
  (* 572-580 *)
  Some (rc, Endpoint (if isl then LOCAL else if is6 then IPV6 else if is4 then IPV4 else UNSPECIFIED) a4 a6 t u l).

(** src/diminuto_ipc_endpoint.c:98-598 diminuto_ipc_endpoint_prefer: what is returned and the
    endpoint; [None] if that is undefined (or does not end). If the string does not fit,
    nothing is parsed and 0 is returned (128-129, 597). *)
Definition prefer (le : bool) (r : resolver) (global : bool) (preference : kind) (s : list Z) : option (Z * endpoint) :=
  let p := begin s in
  if negb (nth (Z.to_nat SIZE - 1) (buf p) 0 =? 0) then Some (0, blank)
  else
    match loop (S (Z.to_nat SIZE)) p with
    | Stopped p =>
      if rc p <? 0 then Some (rc p, blank)
      else let* c := fetch_all p in resolve le r global preference c (f_ipv4 p) (f_ipv6 p)
    | OutOfBounds | OutOfFuel => None
    end.

(** ** Printing *)

(** How addresses are printed: src/diminuto_ipc4.c and src/diminuto_ipc6.c address2string;
    and "%u" (src/diminuto_ipc.c:70). *)
Record printer := Printer { print4 : Z -> list Z; print6 : IpModel.ipv6 -> list Z; print_port : Z -> list Z }.

(** src/diminuto_ipcl.c:49-68 diminuto_ipcl_path2string: the string that is in the buffer, or
    [None] if there is no room for any. diminuto_ipcl_path (95-131) fails if the path does
    not fit. *)
Definition path2string (r : resolver) (l : list Z) (length_ : Z) : option (list Z) :=
  if length_ =? 0 then None
  else if length_ =? 1 then Some []
  else
    match l with
    | [] => Some []
    | _ => match resolve_path r l with Some x => if Z.of_nat (length x) >=? length_ then Some [42] else Some x | None => Some [42] end
    end.

(** src/diminuto_ipc_endpoint.c:600-672 diminuto_ipc_endpoint2string: the string that is in
    the buffer. *)
Definition endpoint2string (le : bool) (r : resolver) (q : printer) (e : endpoint) (length_ : Z) : option (list Z) :=
  if length_ <=? 0 then None else
  let t := negb (tcp e =? 0) || negb (udp e =? 0) in
  let u := t && negb (tcp e =? udp e) in
  let i4 := negb (is_unspecified (address4 e)) in
  let i6 := negb (is_unspecified6 le (address6 e)) in
  let ports := (if t then COLON :: print_port q (tcp e) else []) ++ (if u then COLON :: print_port q (udp e) else []) in
  let a6 := if i6 then OPENS :: print6 q (address6 e) ++ [CLOSES] else [] in
  let a4 := if i4 then print4 q (address4 e) else [] in
  let fit l := Some (firstn (Z.to_nat (length_ - 1)) l) in
  match type e with
  | LOCAL => path2string r (local e) length_
  | IPV6 => fit (a6 ++ ports ++ (if i4 then 44 :: a4 ++ ports else []))
  | IPV4 => fit (a4 ++ ports ++ (if i6 then 44 :: a6 ++ ports else []))
  | UNSPECIFIED => Some []
  end.
