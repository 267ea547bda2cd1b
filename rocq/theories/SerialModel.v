(** Model of diminuto_serial_set() and diminuto_serial_raw() of diminuto_serial.c. The
    constants are those of Linux, asm-generic/termbits.h; cfsetospeed(3) and
    cfsetispeed(3) are those of the GNU library. *)

From Coq Require Import ZArith List Bool.
From Verif Require Import CInt CUtil.
Import ListNotations.
Local Open Scope Z_scope.

Definition IGNBRK := 0x1. Definition BRKINT := 0x2. Definition PARMRK := 0x8. Definition ISTRIP := 0x20.
Definition INLCR := 0x40. Definition IGNCR := 0x80. Definition ICRNL := 0x100. Definition IXON := 0x400. Definition IXOFF := 0x1000.
Definition IBAUD0 := 0x80000000.
Definition OPOST := 0x1.
Definition CSIZE := 0x30. Definition CS5 := 0x0. Definition CS6 := 0x10. Definition CS7 := 0x20. Definition CS8 := 0x30.
Definition CSTOPB := 0x40. Definition CREAD := 0x80. Definition PARENB := 0x100. Definition PARODD := 0x200.
Definition HUPCL := 0x400. Definition CLOCAL := 0x800. Definition CRTSCTS := 0x80000000. Definition CBAUD := 0x100f.
Definition ISIG := 0x1. Definition ICANON := 0x2. Definition ECHO := 0x8. Definition ECHONL := 0x40. Definition IEXTEN := 0x8000.

(** struct termios; of c_cc only VTIME and VMIN. *)
Record termios := mktermios { c_iflag : Z; c_oflag : Z; c_cflag : Z; c_lflag : Z; vtime : Z; vmin : Z; c_ispeed : Z; c_ospeed : Z }.

(** |, and & ~, of unsigned ints. *)
Definition bor (l : list Z) : Z := fold_left Z.lor l 0.
Definition off (x : Z) (l : list Z) : Z := Z.land x (u32 (Z.lnot (bor l))).

(** The switch on bitspersecond, src/diminuto_serial.c:39-105: [Some None] for -1. *)
Definition speed_of (bitspersecond : Z) : option (option Z) :=
  if bitspersecond =? -1 then Some None
  else
    let fix look l := match l with
                      | [] => None
                      | (b, s) :: l => if bitspersecond =? b then Some (Some s) else look l
                      end in
    look [(0, 0x0); (50, 0x1); (75, 0x2); (110, 0x3); (134, 0x4); (150, 0x5); (200, 0x6); (300, 0x7); (600, 0x8); (1200, 0x9);
          (1800, 0xa); (2400, 0xb); (4800, 0xc); (9600, 0xd); (19200, 0xe); (38400, 0xf); (57600, 0x1001); (115200, 0x1002); (230400, 0x1003)].

(** The switch on databits, lines 107-125. *)
Definition data_of (databits : Z) : option Z :=
  if databits =? 5 then Some CS5 else if databits =? 6 then Some CS6 else if databits =? 7 then Some CS7
  else if databits =? 8 then Some CS8 else None.

(** Lines 127-133; % truncates. *)
Definition parity_of (paritybit : Z) : Z :=
  if paritybit =? 0 then 0 else if negb (Z.rem paritybit 2 =? 0) then Z.lor PARENB PARODD else PARENB.

(** The switch on stopbits, lines 135-147. *)
Definition stop_of (stopbits : Z) : option Z :=
  if stopbits =? 1 then Some 0 else if stopbits =? 2 then Some CSTOPB else None.

(** cfsetospeed(3), cfsetispeed(3). *)
Definition cfsetospeed (t : termios) (s : Z) : termios :=
  mktermios (c_iflag t) (c_oflag t) (Z.lor (off (c_cflag t) [CBAUD]) s) (c_lflag t) (vtime t) (vmin t) (c_ispeed t) s.
Definition cfsetispeed (t : termios) (s : Z) : termios :=
  mktermios (if s =? 0 then Z.lor (c_iflag t) IBAUD0 else off (c_iflag t) [IBAUD0])
            (c_oflag t) (Z.lor (off (c_cflag t) [CBAUD]) s) (c_lflag t) (vtime t) (vmin t) s (c_ospeed t).

(** The settings, lines 186-214. *)
Definition settings (t : termios) (speed : option Z) (data parity stop : Z) (modemcontrol xonxoff rtscts : bool) : termios :=
  let clocal := if modemcontrol then 0 else CLOCAL in
  let hupcl := if modemcontrol then HUPCL else 0 in
  let ixon := if xonxoff then IXON else 0 in
  let ixoff := if xonxoff then IXOFF else 0 in
  let crtscts := if rtscts then CRTSCTS else 0 in
  let iflag := off (c_iflag t) [IGNBRK; BRKINT; PARMRK; ISTRIP; INLCR; IGNCR; ICRNL; IXON; IXOFF] in
  let oflag := off (c_oflag t) [OPOST] in
  let cflag := off (c_cflag t) [CSIZE; PARENB; PARODD; CSTOPB; CLOCAL; HUPCL; CRTSCTS] in
  let lflag := off (c_lflag t) [ECHO; ECHONL; ICANON; ISIG; IEXTEN] in
  let iflag := Z.lor (Z.lor iflag ixon) ixoff in
  let cflag := fold_left Z.lor [CREAD; data; parity; stop; clocal; hupcl; crtscts] cflag in
  let t := mktermios iflag oflag cflag lflag (vtime t) (vmin t) (c_ispeed t) (c_ospeed t) in
  let t := match speed with Some s => cfsetispeed (cfsetospeed t s) s | None => t end in
  mktermios (c_iflag t) (c_oflag t) (c_cflag t) (c_lflag t) 0 1 (c_ispeed t) (c_ospeed t).

(** diminuto_serial_set(), src/diminuto_serial.c:22-231. The terminal, if the descriptor
    is one, has settings, and the system may fail to get or to set them; [None] is no
    terminal. A failure of tcflush(3) is only logged. The result, and the terminal
    afterwards. *)
Definition serial_set (terminal : option termios) (gets sets : bool)
    (bitspersecond databits paritybit stopbits : Z) (modemcontrol xonxoff rtscts : bool) : Z * option termios :=
  match speed_of bitspersecond, data_of databits, stop_of stopbits, terminal with
  | Some speed, Some data, Some stop, Some t =>
      if negb gets then (-1, terminal)
      else if negb sets then (-1, terminal)
      else (0, Some (settings t speed data (parity_of paritybit) stop modemcontrol xonxoff rtscts))
  | _, _, _, _ => (-1, terminal)
  end.

(** diminuto_serial_raw(), src/diminuto_serial.c:233-277. *)
Definition serial_raw (terminal : option termios) (gets sets : bool) : Z * option termios :=
  match terminal with
  | Some t =>
      if negb gets then (-1, terminal)
      else if negb sets then (-1, terminal)
      else
        (0, Some (mktermios (off (c_iflag t) [IGNBRK; BRKINT; PARMRK; ISTRIP; INLCR; IGNCR; ICRNL; IXON])
                            (off (c_oflag t) [OPOST])
                            (Z.lor (off (c_cflag t) [CSIZE; PARENB]) (bor [CS8; CREAD; CLOCAL]))
                            (off (c_lflag t) [ECHO; ECHONL; ICANON; ISIG; IEXTEN]) 0 1 (c_ispeed t) (c_ospeed t)))
  | None => (-1, terminal)
  end.
