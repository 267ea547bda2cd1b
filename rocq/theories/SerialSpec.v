(** Specification of serial settings, bit by bit: bit numbers are those of Linux,
    asm-generic/termbits.h. *)

From Coq Require Import ZArith List Bool.
From Verif Require Import SerialModel.
Import ListNotations.
Local Open Scope Z_scope.

Definition word (x : Z) : Prop := 0 <= x < 2 ^ 32.
Definition words (t : termios) : Prop := word (c_iflag t) /\ word (c_oflag t) /\ word (c_cflag t) /\ word (c_lflag t).

(** What a terminal is set to. *)
Definition databits (t : termios) : Z := 5 + (c_cflag t / 16) mod 4.
Definition two_stop_bits (t : termios) : bool := Z.testbit (c_cflag t) 6.
Definition receiver (t : termios) : bool := Z.testbit (c_cflag t) 7.
Inductive parity := NoParity | Even | Odd.
Definition parity_is (t : termios) : parity :=
  if Z.testbit (c_cflag t) 8 then if Z.testbit (c_cflag t) 9 then Odd else Even else NoParity.
Definition hangs_up (t : termios) : bool := Z.testbit (c_cflag t) 10.
Definition ignores_modem (t : termios) : bool := Z.testbit (c_cflag t) 11.
Definition rts_cts (t : termios) : bool := Z.testbit (c_cflag t) 31.
Definition xon_out (t : termios) : bool := Z.testbit (c_iflag t) 10.
Definition xon_in (t : termios) : bool := Z.testbit (c_iflag t) 12.
Definition speed_code (t : termios) : Z := Z.land (c_cflag t) 0x100f.

(** Octets pass through unchanged: no translation, echo, lines or signals; a read
    returns as soon as there is an octet. *)
Definition transparent (t : termios) : Prop :=
  (forall b, In b [0; 1; 3; 5; 6; 7; 8] -> Z.testbit (c_iflag t) b = false) /\
  Z.testbit (c_oflag t) 0 = false /\
  (forall b, In b [0; 1; 3; 6; 15] -> Z.testbit (c_lflag t) b = false) /\
  vtime t = 0 /\ vmin t = 1.

(** Everything else is as it was. *)
Definition same_but (a b : Z) (bits : list Z) : Prop :=
  forall i, 0 <= i < 32 -> ~ In i bits -> Z.testbit a i = Z.testbit b i.

(** The codes of the speeds. *)
Definition codes : list (Z * Z) :=
  combine [0; 50; 75; 110; 134; 150; 200; 300; 600; 1200; 1800; 2400; 4800; 9600; 19200; 38400; 57600; 115200; 230400]
          [0; 1; 2; 3; 4; 5; 6; 7; 8; 9; 10; 11; 12; 13; 14; 15; 4097; 4098; 4099].
