(** Model of diminuto_hamming.c and src/diminuto_hamming.h. *)

From Coq Require Import ZArith List Bool.
From Verif Require Import CInt.
Import ListNotations.
Local Open Scope Z_scope.

(** The expression ((x & BIT) >> OFF) with BIT = 1 << OFF, used throughout
    src/diminuto_hamming.h:58-193. *)
Definition pick (x off : Z) : Z := Z.shiftr (Z.land x (Z.shiftl 1 off)) off.

(** src/diminuto_hamming.h:22-50, the offsets. *)
Definition D1 : Z := 3.
Definition D2 : Z := 2.
Definition D3 : Z := 1.
Definition D4 : Z := 0.
Definition P1 : Z := 7.
Definition P2 : Z := 6.
Definition S1 : Z := 5.
Definition P3 : Z := 4.
Definition S2 : Z := 3.
Definition S3 : Z := 2.
Definition S4 : Z := 1.
Definition P4 : Z := 0.

(** src/diminuto_hamming.h:58-65. *)
Definition dat2sym (nib : Z) : Z :=
  Z.lor (Z.lor (Z.lor (Z.shiftl (pick nib D1) S1) (Z.shiftl (pick nib D2) S2))
               (Z.shiftl (pick nib D3) S3))
        (Z.shiftl (pick nib D4) S4).

(** src/diminuto_hamming.h:73-80. *)
Definition sym2dat (sym : Z) : Z :=
  Z.lor (Z.lor (Z.lor (Z.shiftl (pick sym S1) D1) (Z.shiftl (pick sym S2) D2))
               (Z.shiftl (pick sym S3) D3))
        (Z.shiftl (pick sym S4) D4).

(** src/diminuto_hamming.h:89-95. *)
Definition sym2par1 (sym : Z) : Z :=
  Z.shiftl (Z.lxor (Z.lxor (pick sym S1) (pick sym S2)) (pick sym S4)) P1.

(** src/diminuto_hamming.h:104-110. *)
Definition sym2par2 (sym : Z) : Z :=
  Z.shiftl (Z.lxor (Z.lxor (pick sym S1) (pick sym S3)) (pick sym S4)) P2.

(** src/diminuto_hamming.h:119-125. *)
Definition sym2par3 (sym : Z) : Z :=
  Z.shiftl (Z.lxor (Z.lxor (pick sym S2) (pick sym S3)) (pick sym S4)) P3.

(** src/diminuto_hamming.h:134-144. *)
Definition sym2par4 (sym : Z) : Z :=
  Z.shiftl
    (Z.lxor (Z.lxor (Z.lxor (Z.lxor (Z.lxor (Z.lxor (pick sym P1) (pick sym P2))
       (pick sym S1)) (pick sym P3)) (pick sym S2)) (pick sym S3)) (pick sym S4)) P4.

(** src/diminuto_hamming.h:157-179. *)
Definition VALID : list Z :=
  [0x00; 0xd2; 0x55; 0x87; 0x99; 0x4b; 0xcc; 0x1e; 0xe1; 0x33; 0xb4; 0x66; 0x78; 0xaa; 0x2d; 0xff].
Definition sym_is_valid (sym : Z) : bool := existsb (Z.eqb sym) VALID.

(** src/diminuto_hamming.h:187-193. *)
Definition sym2off (sym : Z) : Z :=
  u8 (8 - Z.lor (Z.lor
      (Z.shiftl (Z.shiftr (Z.lxor (sym2par1 sym) (Z.land sym (Z.shiftl 1 P1))) P1) 0)
      (Z.shiftl (Z.shiftr (Z.lxor (sym2par2 sym) (Z.land sym (Z.shiftl 1 P2))) P2) 1))
      (Z.shiftl (Z.shiftr (Z.lxor (sym2par3 sym) (Z.land sym (Z.shiftl 1 P3))) P3) 2)).

(** diminuto_hamming.c:16-24. *)
Definition nib2sym (nib : Z) : Z :=
  let sym := u8 (dat2sym nib) in
  let sym := u8 (Z.lor sym (Z.lor (Z.lor (sym2par1 sym) (sym2par2 sym)) (sym2par3 sym))) in
  u8 (Z.lor sym (sym2par4 sym)).

(** diminuto_hamming.c:26-48: the nibble and the error count stored through
    the second parameter. *)
Definition sym2nib (sym : Z) : Z * Z :=
  if sym_is_valid sym then (sym2dat sym, 0)
  else
    let fix1 := u8 (Z.lxor sym (Z.shiftl 1 (sym2off sym))) in
    if sym_is_valid fix1 then (sym2dat fix1, 1)
    else
      let fix2 := u8 (Z.lxor sym (Z.shiftl 1 P4)) in
      if sym_is_valid fix2 then (sym2dat fix2, 1)
      else (0, 2).
