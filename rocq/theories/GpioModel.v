(** Model of bin/gpiotool.c: the utility that reads or writes one pin. Command line arguments
    are the octets before the NUL, without the name of the program. Simplifications: messages
    are left out; a number that is no numeral has been stored before it is refused, which
    matters to no call. *)

From Coq Require Import ZArith List Bool.
From Verif Require Import CInt CUtil NumberModel PinModel.
Import ListNotations.
Local Open Scope Z_scope.

(** How the system answers: on exporting the pin, on setting its direction, and on
    unexporting it; whether there is a file for the value, whether it can be opened, whether
    lseek(2) works; what read(2) or write(2) return, and the first octet that is read;
    whether fclose(3) works. *)
Record world := World { w_export : answers; w_direction : answers; w_unexport : answers; w_stat : bool; w_fopen : bool;
  w_lseek : bool; w_size : Z; w_first : Z; w_fclose : bool }.

(** What the utility comes to: the exit status, the calls, and what is printed. *)
Record outcome := Outcome { exit : Z; calls : list action; output : list Z }.

Section Gpio.
Variable w : world.
(** The delay, the number of tries, and the root of the file system of the kernel. *)
Variables delay tries : Z.
Variable root : list Z.

(** bin/gpiotool.c:91-93 after the loop: the pin is converted to int when it is passed. *)
Definition leave (fp : bool) (pin rc : Z) (calls : list action) (output : list Z) : outcome :=
  Outcome rc (calls ++ snd (unused (w_unexport w) (w_fclose w) delay root fp (s32 pin))) output.

(** bin/gpiotool.c:61-69: one argument; diminuto_pin_input is in
    inc/com/diag/diminuto/diminuto_pin.h:357-360. *)
Definition input (pin : Z) : outcome :=
  let '(fp, t) := setup (w_export w) (w_direction w) (w_stat w) (w_fopen w) delay tries root (s32 pin) 0 in
  if negb fp then leave fp pin 1 t []
  else
    let '(state, t2) := pin_get (w_lseek w) (w_size w) (w_first w) in
    if state <? 0 then leave fp pin 1 (t ++ t2) []
    else leave fp pin 0 (t ++ t2) ((if negb (state =? 0) then [49] else [48]) ++ [10]).

(** bin/gpiotool.c:80-87: two arguments; diminuto_pin_output is in
    inc/com/diag/diminuto/diminuto_pin.h:369-372. *)
Definition give (pin value : Z) : outcome :=
  let '(fp, t) := setup (w_export w) (w_direction w) (w_stat w) (w_fopen w) delay tries root (s32 pin) 1 in
  if negb fp then leave fp pin 1 t []
  else
    let '(rc, t2) := pin_put (w_lseek w) (w_size w) (if negb (value =? 0) then 1 else 0) in
    if rc <? 0 then leave fp pin 1 (t ++ t2) [] else leave fp pin 0 (t ++ t2) [].

(** bin/gpiotool.c:38-94 main; [junk] is what the pin is that has not been set. *)
Definition main (junk : Z) (args : list (list Z)) : outcome :=
  match args with
  | [] => leave false junk 1 [] []
  | a :: more =>
      match number_unsigned a with
      | (pin, _ :: _) => leave false pin 1 [] []
      | (pin, []) =>
          match more with
          | [] => input pin
          | b :: rest =>
              match number_unsigned b with
              | (_, _ :: _) => leave false pin 1 [] []
              | (value, []) => match rest with [] => give pin value | _ => leave false pin 1 [] [] end
              end
          end
      end
  end.
End Gpio.
