(** Property C12. All theorems range over finite sets, and are settled by
    complete enumeration inside the kernel. *)

From Coq Require Import ZArith List Bool Lia.
From Verif Require Import CInt CUtil HammingModel HammingProofs.
Import ListNotations.
Local Open Scope Z_scope.

(** No error. *)
Theorem C12_no_error : forall nib, 0 <= nib < 16 -> sym2nib (nib2sym nib) = (nib, 0).
Proof. exact no_error. Qed.
Print Assumptions C12_no_error.

(** One flipped bit is corrected, and reported as one error. *)
Theorem C12_single_corrected : forall nib i,
  0 <= nib < 16 -> 0 <= i < 8 -> sym2nib (Z.lxor (nib2sym nib) (2 ^ i)) = (nib, 1).
Proof. exact single_corrected. Qed.
Print Assumptions C12_single_corrected.

(** Two flipped bits are reported as two errors, and never as a value. *)
Theorem C12_double_detected : forall nib i j,
  0 <= nib < 16 -> 0 <= i < 8 -> 0 <= j < 8 -> i <> j ->
  sym2nib (Z.lxor (Z.lxor (nib2sym nib) (2 ^ i)) (2 ^ j)) = (0, 2).
Proof. exact double_detected. Qed.
Print Assumptions C12_double_detected.

(** The decoder, on every octet: 0 errors exactly for symbols, 1 exactly for
    octets one flip away from a symbol, which is then the one decoded. *)
Theorem C12_decoder_complete : forall sym, is_u8 sym ->
  match sym2nib sym with
  | (nib, 0) => 0 <= nib < 16 /\ sym = nib2sym nib
  | (nib, 1) => 0 <= nib < 16 /\ exists i, 0 <= i < 8 /\ sym = Z.lxor (nib2sym nib) (2 ^ i)
  | (nib, 2) => nib = 0 /\ forall n, 0 <= n < 16 -> sym <> nib2sym n /\
                 forall i, 0 <= i < 8 -> sym <> Z.lxor (nib2sym n) (2 ^ i)
  | _ => False
  end.
Proof. exact decoder_complete. Qed.
Print Assumptions C12_decoder_complete.

(** The high four bits given to the encoder are ignored, and symbols fit an octet. *)
Theorem C12_encoder_range : forall nib, is_u8 nib ->
  nib2sym nib = nib2sym (nib mod 16) /\ is_u8 (nib2sym nib).
Proof. exact encoder_range. Qed.
Print Assumptions C12_encoder_range.

Example C12_example :
  nib2sym 0xb = 0x66 /\ sym2nib (Z.lxor 0x66 (2 ^ 5)) = (0xb, 1) /\
  sym2nib (Z.lxor (Z.lxor 0x66 (2 ^ 0)) (2 ^ 7)) = (0, 2).
Proof. vm_compute. auto. Qed.
