(** Specification for endpoints: what is spelled in a string, and what that means. *)

From Coq Require Import ZArith List Bool Arith Ascii String.
From Verif Require Import CInt CUtil IpModel EndpointModel.
Import ListNotations.
Local Open Scope Z_scope.

(** Strings, for examples. *)
Definition text (s : string) : list Z := map (fun a => Z.of_N (N_of_ascii a)) (list_ascii_of_string s).

(** A string of the C language: no NUL in it. *)
Definition c_string (s : list Z) : Prop := ~ In 0 s.

(** ** The grammar *)

Definition digit (c : Z) : Prop := 48 <= c <= 57.
Definition letter (c : Z) : Prop := 97 <= c <= 122 \/ 65 <= c <= 90.
Definition alphanumeric (c : Z) : Prop := digit c \/ letter c.
(** Hosts: letters, digits, hyphens, periods. *)
Definition hostly (c : Z) : Prop := alphanumeric c \/ c = HYPHEN \/ c = PERIOD.
(** Addresses of the sixth version: hexadecimal digits, colons, periods. *)
Definition sixly (c : Z) : Prop := digit c \/ 97 <= c <= 102 \/ 65 <= c <= 70 \/ c = COLON \/ c = PERIOD.

(** "80" *)
Definition numeric (w : list Z) : Prop := w <> [] /\ Forall digit w.
(** "192.168.1.254" *)
Definition dotted (w : list Z) : Prop := exists n l, w = n ++ PERIOD :: l /\ numeric n /\ Forall (fun c => digit c \/ c = PERIOD) l.
(** "diag.com", "my-host", "1-2", "localhost": begins with a letter or a digit, and is
    neither of the above. *)
Definition host (w : list Z) : Prop := exists c l, w = c :: l /\ alphanumeric c /\ Forall hostly l /\ ~ numeric w /\ ~ dotted w.
(** Hosts that may as well be services: "http"; and, by the way, "1-2" and "1.2.a". *)
Definition plain (w : list Z) : Prop :=
  (Forall alphanumeric w /\ Exists letter w) \/
  (exists n l, w = n ++ HYPHEN :: l /\ numeric n /\ Forall alphanumeric l) \/
  (exists n c l, w = n ++ c :: l /\ dotted n /\ letter c /\ Forall alphanumeric l).
(** "http" *)
Definition servicely (w : list Z) : Prop := exists c l, w = c :: l /\ letter c /\ Forall alphanumeric l.

Definition nothing : parts := Parts None None None None None None None.
Definition with_port (c : parts) (w : list Z) : parts := Parts (name c) (fqdn c) (ipv4 c) (ipv6 c) (Some w) (service c) (path c).
Definition with_service (c : parts) (w : list Z) : parts := Parts (name c) (fqdn c) (ipv4 c) (ipv6 c) (port c) (Some w) (path c).

(** What may follow a colon: nothing, a port, a service. *)
Inductive follows (c : parts) : list Z -> parts -> Prop :=
  | F_nothing : follows c [] c
  | F_port w : numeric w -> follows c w (with_port c w)
  | F_service w : servicely w -> follows c w (with_service c w).
(** What may follow an address: nothing, or a colon and what may follow it. *)
Inductive ends (c : parts) : list Z -> parts -> Prop :=
  | E_end : ends c [] c
  | E_colon l d : follows c l d -> ends c (COLON :: l) d.

(** Characters that are skipped at the beginning: all that do not begin anything. *)
Definition skipped (x : Z) : Prop := ~ alphanumeric x /\ x <> COLON /\ x <> OPENS /\ x <> SLASH /\ x <> PERIOD.

Inductive spells : list Z -> parts -> Prop :=
  | Sp_skip x s c : skipped x -> spells s c -> spells (x :: s) c
  (* "" is an unnamed path *)
  | Sp_empty : spells [] (Parts None None None None None None (Some []))
  (* "/tmp/unix.sock", "./unix.sock" *)
  | Sp_path x s : x = SLASH \/ x = PERIOD -> spells (x :: s) (Parts None None None None None None (Some (x :: s)))
  (* "run/unix.sock", "1/2" *)
  | Sp_word w s : numeric w \/ host w -> spells (w ++ SLASH :: s) (Parts None None None None None None (Some (w ++ SLASH :: s)))
  (* ":80", ":http" *)
  | Sp_colon l d : follows nothing l d -> spells (COLON :: l) d
  (* "80" *)
  | Sp_port w : numeric w -> spells w (Parts None None None None (Some w) None None)
  (* "172.217.1.206", "172.217.1.206:80", "172.217.1.206:http" *)
  | Sp_ipv4 w l d : dotted w -> ends (Parts None None (Some w) None None None None) l d -> spells (w ++ l) d
  (* "[::1]", "[::1]:80", "[::1]:http" *)
  | Sp_ipv6 w l d : Forall sixly w -> ends (Parts None None None (Some w) None None None) l d -> spells (OPENS :: w ++ CLOSES :: l) d
  (* "localhost", "http" *)
  | Sp_name w : host w -> plain w -> spells w (Parts (Some w) None None None None None None)
  (* "diag.com" *)
  | Sp_fqdn w : host w -> ~ plain w -> spells w (Parts None (Some w) None None None None None)
  (* "localhost:80", "diag.com:http" *)
  | Sp_fqdn_colon w l d : host w -> follows (Parts None (Some w) None None None None None) l d -> spells (w ++ COLON :: l) d.

(** ** What it means *)

(** The value of a string of digits. *)
Definition value (w : list Z) : Z := fold_left (fun n c => 10 * n + (c - 48)) w 0.

(** The hosts that are to be resolved. *)
Definition hosted (c : parts) : option (list Z) := match fqdn c with Some h => Some h | None => name c end.

Section Meaning.
  Context (le : bool) (r : resolver) (global : bool) (preference : kind) (c : parts).

  (** The addresses: those of the host, or of the address that is spelled, or none. *)
  Definition means4 : Z := match hosted c, ipv4 c with Some h, _ => resolve4 r h | None, Some w => resolve4 r w | None, None => 0 end.
  Definition means6 : IpModel.ipv6 := match hosted c, ipv6 c with Some h, _ => resolve6 r h | None, Some w => resolve6 r w | None, None => UNSPECIFIED6 end.
  (** No address. *)
  Definition unresolved : Prop := means4 = 0 /\ means6 = UNSPECIFIED6.
  (** The ports ([b] for tcp): of the service or the port that is spelled; or of the service
      of this name, if there is no host of this name; or none. *)
  Definition means_port (b : bool) (n : Z) : Prop :=
    match service c, port c, name c with
    | Some s, _, _ => n = resolve_port r s b
    | None, Some w, _ => n = value w mod 65536
    | None, None, Some h => (unresolved -> n = resolve_port r h b) /\ (~ unresolved -> n = 0)
    | None, None, None => n = 0
    end.
  (** The path. *)
  Definition means_path (l : list Z) : Prop :=
    match path c with
    | None | Some [] => l = []
    | Some s => resolve_path r s = Some l
    end.
  (** Does it mean anything? A fully qualified domain name needs an address; a name needs an
      address or a port; a service needs a port; a path needs to be resolved. *)
  Definition meaningful : Prop :=
    (fqdn c <> None -> ~ unresolved) /\
    (forall h, name c = Some h -> ~ unresolved \/ resolve_port r h true <> 0 \/ resolve_port r h false <> 0) /\
    (forall s, service c = Some s -> resolve_port r s true <> 0 \/ resolve_port r s false <> 0) /\
    (forall s, path c = Some s -> s <> [] -> resolve_path r s <> None).
  (** What the caller would rather have. *)
  Definition rather : kind := match preference with IPV4 => IPV4 | IPV6 => IPV6 | _ => if global then IPV6 else IPV4 end.
  (** The type: local for a path; else that of the only address; or, of two, as the caller
      would have it, unless the sixth is only the fourth in another form; or, without any
      address, that of the address that is spelled; or else as the caller would have it. *)
  Definition means_type : kind :=
    match path c with
    | Some _ => LOCAL
    | None =>
      if list_eq_dec Z.eq_dec means6 UNSPECIFIED6 then
        if Z.eq_dec means4 0 then match ipv4 c, ipv6 c with Some _, _ => IPV4 | None, Some _ => IPV6 | None, None => rather end
        else IPV4
      else
        if Z.eq_dec means4 0 then IPV6
        else if is_v4mapped le means6 then IPV4
        else rather
    end.
  (** All of it. *)
  Definition means (e : endpoint) : Prop :=
    address4 e = means4 /\ address6 e = means6 /\ means_port true (tcp e) /\ means_port false (udp e) /\ means_path (local e) /\ type e = means_type.
End Meaning.

(** Ports that are an int of the C language. *)
Definition port_ok (c : parts) : Prop := forall w, port c = Some w -> value w <= 2147483647.

(** Addresses are eight numbers of sixteen bits. *)
Definition ipv6_ok (a : IpModel.ipv6) : Prop := List.length a = 8%nat /\ Forall is_u16 a.
Definition resolver_ok (r : resolver) : Prop := (forall h, ipv6_ok (resolve6 r h)) /\ (forall h, is_u32 (resolve4 r h)) /\ (forall s b, is_u16 (resolve_port r s b)).

(** ** Printing *)

(** What is printed for an address is an address as it is spelled, resolves to it, and fits
    the buffer; and likewise for a port. *)
Definition prints4 (r : resolver) (q : printer) (a : Z) : Prop := dotted (print4 q a) /\ resolve4 r (print4 q a) = a /\ (List.length (print4 q a) <= 15)%nat.
Definition prints6 (r : resolver) (q : printer) (a : IpModel.ipv6) : Prop := Forall sixly (print6 q a) /\ resolve6 r (print6 q a) = a /\ (List.length (print6 q a) <= 45)%nat.
Definition prints_port (q : printer) (n : Z) : Prop := numeric (print_port q n) /\ value (print_port q n) = n /\ (List.length (print_port q n) <= 5)%nat.

(** ** For the examples *)

Definition resolver_example : resolver :=
  Resolver (fun h => if list_eq_dec Z.eq_dec h (text "diag.com") then 16909060 else if list_eq_dec Z.eq_dec h (text "1.2.3.4") then 16909060 else if list_eq_dec Z.eq_dec h (text "localhost") then 2130706433 else 0)
    (fun h => if list_eq_dec Z.eq_dec h (text "diag.com") then [8193; 0; 0; 0; 0; 0; 0; 1] else if list_eq_dec Z.eq_dec h (text "::1") then LOOPBACK6 else UNSPECIFIED6)
    (fun s b => if list_eq_dec Z.eq_dec s (text "http") then 80 else if list_eq_dec Z.eq_dec s (text "tftp") then if b then 0 else 69 else 0)
    (fun s => if list_eq_dec Z.eq_dec s (text "./sock") then Some (text "/home/sock") else None).

Definition printer_example : printer :=
  Printer (fun a => if a =? 16909060 then text "1.2.3.4" else text "0.0.0.0") (fun a => if list_eq_dec Z.eq_dec a LOOPBACK6 then text "::1" else text "::")
    (fun n => if n =? 80 then text "80" else if n =? 69 then text "69" else text "0").
(** A string that does not fit: a path of 4096 characters. *)
Definition long_path : list Z := repeat SLASH (Z.to_nat SIZE).
