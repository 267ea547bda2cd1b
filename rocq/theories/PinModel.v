(** Model of diminuto_pin.c and of the functions in diminuto_pin.h: general purpose I/O
    pins by way of sysfs. The calls made are listed; the system answers arbitrarily.
    Strings are the octets before the NUL. *)

From Coq Require Import ZArith List Bool.
From Verif Require Import CInt CUtil OptionModel.
Import ListNotations.
Local Open Scope Z_scope.

Inductive err := ENOENT | EPERM | EACCES | EINVAL | EOTHER.
Inductive action :=
  | Stat (file : list Z)
  | Fopen (file : list Z) (mode : Z)
  | Delay (ticks : Z)
  | Fputs (s : list Z)
  | Fflush
  | Fclose
  | Lseek
  | Write (s : list Z)
  | Read (n : Z).

(** The formats, src/diminuto_pin.c:48-58: the root, what is in front of the pin if it is
    in the name, and what is behind it. *)
Inductive format := Whole (tail : list Z) | Numbered (head tail : list Z).
Definition CLASS := [47; 99; 108; 97; 115; 115; 47; 103; 112; 105; 111; 47]. (* /class/gpio/ *)
Definition GPIO := [103; 112; 105; 111].
Definition EXPORT := Whole (CLASS ++ [101; 120; 112; 111; 114; 116]).
Definition UNEXPORT := Whole (CLASS ++ [117; 110; 101; 120; 112; 111; 114; 116]).
Definition DIRECTION := Numbered (CLASS ++ GPIO) [47; 100; 105; 114; 101; 99; 116; 105; 111; 110].
Definition ACTIVELOW := Numbered (CLASS ++ GPIO) [47; 97; 99; 116; 105; 118; 101; 95; 108; 111; 119].
Definition EDGE := Numbered (CLASS ++ GPIO) [47; 101; 100; 103; 101].
Definition VALUE := Numbered (CLASS ++ GPIO) [47; 118; 97; 108; 117; 101].

(** snprintf(3) with one of them into a buffer of 4096 octets, which always ends with a
    NUL: so the test in lines 90-95 is never true. *)
Definition filename (root : list Z) (f : format) (pin : Z) : list Z :=
  firstn 4095 (match f with
               | Whole t => root ++ t
               | Numbered h t => root ++ h ++ utoa 10 pin [] ++ t
               end).

Definition retry (e : err) : bool := match e with ENOENT | EPERM | EACCES => true | _ => false end.

(** The loop, src/diminuto_pin.c:99-149; [stat] and [fopen] answer by the number of tries
    left. The delay is that of the global variable. *)
Fixpoint attempts (stat fopen : nat -> option err) (delay : Z) (file : list Z) (tries : nat) : bool * list action :=
  match tries with
  | O => (false, [])
  | S more =>
      let again := fun l : list action =>
        match more with
        | O => (false, l)
        | S _ => let '(r, t) := attempts stat fopen delay file more in (r, l ++ Delay delay :: t)
        end in
      match stat tries with
      | Some e => if retry e then again [Stat file] else (false, [Stat file])
      | None =>
          match fopen tries with
          | None => (true, [Stat file; Fopen file 119])
          | Some e => if retry e then again [Stat file; Fopen file 119] else (false, [Stat file; Fopen file 119])
          end
      end
  end.
(** Whether an error is passed over, lines 158-168 and 172-182. *)
Definition passes (e : option err) (ignore : bool) : bool :=
  match e with None => true | Some EINVAL => ignore | Some _ => false end.

(** The answers to one call: by tries left, then of fputs(3), fflush(3) and fclose(3). *)
Record answers := mkanswers { stat : nat -> option err; fopen : nat -> option err; fputs : option err; fflush : option err; fclose : bool }.

(** diminuto_pin_configure_generic(), lines 70-202; [pin_delay] is diminuto_pin_delay. *)
Definition configure_generic (a : answers) (pin_delay : Z) (root : list Z) (f : format) (pin : Z) (string : list Z) (ignore : bool) (tries delay : Z) : Z * list action :=
  if pin <? 0 then (-1, [])
  else
    let '(opened, trace) := attempts (stat a) (fopen a) pin_delay (filename root f pin) (Z.to_nat tries) in
    if negb opened then (-1, trace)
    else
      let '(result, done) :=
        if negb (passes (fputs a) ignore) then (-1, [Fputs string])
        else if negb (passes (fflush a) ignore) then (-1, [Fputs string; Fflush])
        else (0, [Fputs string; Fflush]) in
      ((if fclose a then result else -1), trace ++ done ++ [Fclose]).

(** diminuto_pin_port_generic(), lines 204-209: the buffer has room for any pin. *)
Definition port_generic (a : answers) (pin_delay : Z) (root : list Z) (f : format) (pin : Z) (ignore : bool) : Z * list action :=
  configure_generic a pin_delay root f pin (utoa 10 pin [] ++ [10]) ignore 1 0.

(** inc/com/diag/diminuto/diminuto_pin.h:195-302, diminuto_pin_tries being [tries]. *)
Definition configure (a : answers) (pin_delay tries : Z) (root : list Z) (f : format) (pin : Z) (string : list Z) : Z * list action :=
  configure_generic a pin_delay root f pin string false tries pin_delay.
Definition export (a : answers) (pin_delay : Z) (root : list Z) (pin : Z) := port_generic a pin_delay root EXPORT pin false.
Definition unexport (a : answers) (pin_delay : Z) (root : list Z) (pin : Z) := port_generic a pin_delay root UNEXPORT pin false.
Definition unexport_ignore (a : answers) (pin_delay : Z) (root : list Z) (pin : Z) := port_generic a pin_delay root UNEXPORT pin true.
Definition active (a : answers) (pin_delay tries : Z) (root : list Z) (pin high : Z) :=
  configure a pin_delay tries root ACTIVELOW pin (if negb (high =? 0) then [48; 10] else [49; 10]).
Definition direction (a : answers) (pin_delay tries : Z) (root : list Z) (pin output : Z) :=
  configure a pin_delay tries root DIRECTION pin (if negb (output =? 0) then [111; 117; 116; 10] else [105; 110; 10]).
Definition initialize (a : answers) (pin_delay tries : Z) (root : list Z) (pin high : Z) :=
  configure a pin_delay tries root DIRECTION pin (if negb (high =? 0) then [104; 105; 103; 104; 10] else [108; 111; 119; 10]).
(** diminuto_pin_edge(), src/diminuto_pin.c:211-224. *)
Definition edge (a : answers) (pin_delay tries : Z) (root : list Z) (pin e : Z) :=
  configure a pin_delay tries root EDGE pin
    (if e =? 0 then [110; 111; 110; 101; 10]
     else if e =? 1 then [114; 105; 115; 105; 110; 103; 10]
     else if e =? 3 then [98; 111; 116; 104; 10]
     else [102; 97; 108; 108; 105; 110; 103; 10]).

(** diminuto_pin_open(), lines 226-265: whether there is a stream. *)
Definition pin_open (stat fopen : bool) (root : list Z) (pin output : Z) : bool * list action :=
  if pin <? 0 then (false, [])
  else
    let f := filename root VALUE pin in
    if negb stat then (false, [Stat f])
    else (fopen, [Stat f; Fopen f (if negb (output =? 0) then 119 else 114)]).

(** diminuto_pin_close(), lines 267-280: whether the result is not null. *)
Definition pin_close (fp fclose : bool) : bool * list action :=
  if negb fp then (false, []) else (negb fclose, [Fclose]).

(** diminuto_pin_setup(), lines 282-295. *)
Definition setup (a b : answers) (stat fopen : bool) (pin_delay tries : Z) (root : list Z) (pin output : Z) : bool * list action :=
  let '(r1, t1) := export a pin_delay root pin in
  if r1 <? 0 then (false, t1)
  else
    let '(r2, t2) := direction b pin_delay tries root pin output in
    if r2 <? 0 then (false, t1 ++ t2)
    else let '(fp, t3) := pin_open stat fopen root pin output in (fp, t1 ++ t2 ++ t3).

(** diminuto_pin_unused(), lines 297-310. *)
Definition unused (a : answers) (fclose : bool) (pin_delay : Z) (root : list Z) (fp : bool) (pin : Z) : bool * list action :=
  if negb fp then (false, [])
  else
    let '(r, t) := unexport a pin_delay root pin in
    if r <? 0 then (true, t)
    else let '(fp, t2) := pin_close fp fclose in (fp, t ++ t2).

(** diminuto_pin_put(), lines 323-359; [size] is what write(2) answers. *)
Definition pin_put (lseek : bool) (size assert : Z) : Z * list action :=
  if negb lseek then (-1, [Lseek])
  else ((if size <? 0 then -1 else 0), [Lseek; Write (if negb (assert =? 0) then [49; 10] else [48; 10])]).

(** diminuto_pin_get(), lines 361-411; what read(2) answers, and the first octet it
    stored. *)
Definition pin_get (lseek : bool) (size first : Z) : Z * list action :=
  if negb lseek then (-1, [Lseek])
  else
    ((if size <? 0 then -1
      else if size =? 0 then -1
      else if first =? 48 then 0
      else if first =? 49 then 1
      else -1), [Lseek; Read 2]).
