(** Model of the output half of bin/framertool.c: frames from the device become octets of the
    standard output. The reader is that of FramerModel. Simplifications: the multiplexor and
    the waiting are left out (each octet of the device is taken when it is there), the
    input does not end before the device does, and the messages, among them those about the
    numbers of the frames and about flow control, are left out. *)

From Coq Require Import ZArith List Bool.
From Verif Require Import CInt FramerModel.
Import ListNotations.
Local Open Scope Z_scope.

Section Framerlink.
(** Whether fwrite(3) and fflush(3) work, by the number of the time. *)
Variable writes : nat -> bool.

(** bin/framertool.c:415-475 and 490: the framer, how often something was written before, and
    what was written. If it cannot be written then the framer is not reset. *)
Fixpoint output (f : framer) (ts : list (option Z)) (n : nat) (out : list (list Z)) : option (framer * list (list Z)) :=
  match ts with
  | [] => Some (f, out)
  | t :: ts =>
      match reader_step f t with
      | None => None
      | Some (f, received) =>
          if received =? 0 then output f ts n out
          else if received <? 0 then Some (f, out)
          else if writes n then output (reset f) ts (S n) (out ++ [firstn (Z.to_nat (getlength f)) (buffer f)])
          else output f ts (S n) out
      end
  end.

(** bin/framertool.c:314 and 338: both the memory and the size are those of -B. *)
Definition receive (memory : list Z) (ts : list (option Z)) : option (framer * list (list Z)) :=
  output (init memory (Z.of_nat (length memory))) ts 0 [].
End Framerlink.
