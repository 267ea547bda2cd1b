(** Model of bin/ipcalc.c: the calculator of network masks, broadcast addresses and host
    addresses. The arguments are those after the name. An address is a number of 32 bits
    whose octets in memory, the least significant first because the host is little endian,
    are those of the address in the order of the network. Simplifications: what is written
    to standard error, and the text of the usage message, are left out. *)

From Coq Require Import ZArith List Bool.
From Verif Require Import CUtil CInt DecModel.
Import ListNotations.
Local Open Scope Z_scope.

(** inet_ntoa(3). *)
Definition ntoa (s_addr : Z) : list Z :=
  number 10 (u8 s_addr) ++ [46] ++ number 10 (u8 (Z.shiftr s_addr 8)) ++ [46] ++
  number 10 (u8 (Z.shiftr s_addr 16)) ++ [46] ++ number 10 (u8 (Z.shiftr s_addr 24)).

(** bin/ipcalc.c:63-70: all of the arguments as addresses; none if inet_aton(3), which is
    [aton], refuses any. *)
Fixpoint parse (aton : list Z -> option Z) (args : list (list Z)) : option (list Z) :=
  match args with
  | [] => Some []
  | a :: args' => let* x := aton a in let* l := parse aton args' in Some (x :: l)
  end.

(** bin/ipcalc.c:72-92. *)
Definition compute (addr : list Z) : Z :=
  match addr with
  | [a0; a1; a2] => Z.lor (Z.land a0 a1) (Z.land a2 (u32 (Z.lnot a1)))
  | [a0; a1] => Z.lor (Z.land a0 a1) (Z.lxor (u32 (Z.lnot 0)) a1)
  | a0 :: _ =>
      let h := swap32 a0 in
      if Z.land h 2147483648 =? 0 then swap32 4278190080
      else if Z.land h 3221225472 =? 2147483648 then swap32 4294901760
      else swap32 4294967040
  | [] => 0
  end.

(** bin/ipcalc.c:47-97 main: what is printed, without the usage message, and the exit
    status. *)
Definition ipcalc (aton : list Z -> option Z) (args : list (list Z)) : list Z * Z :=
  if (match args with [a] => same a [45; 63] | _ => false end) then ([], 0)
  else if negb ((1 <=? Z.of_nat (length args)) && (Z.of_nat (length args) <=? 3)) then ([], 1)
  else
    match parse aton args with
    | None => ([], 1)
    | Some addr => (ntoa (compute addr) ++ [10], 0)
    end.
