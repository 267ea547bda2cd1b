(** Properties C08, C09, C10 and C11. *)

From Coq Require Import ZArith List Bool Lia.
From Verif Require Import CInt ChecksumModel ChecksumSpec ChecksumProofs.
Import ListNotations.
Local Open Scope Z_scope.

(** C08: the table driven CRC is the bit serial CRC with polynomial 0x8408. *)
Theorem C08_kermit_is_crc : forall data crc,
  octets data -> is_u16 crc -> kermit_16 data crc = crc_string data crc.
Proof. intros. exact (kermit_16_spec data crc H H0). Qed.
Print Assumptions C08_kermit_is_crc.

(** The check value of CRC-16/KERMIT over the digits 1 to 9 is 0x2189. *)
Example C08_kermit_is_crc_ex :
  let data := [49; 50; 51; 52; 53; 54; 55; 56; 57] in
  octets data /\ is_u16 0 /\ kermit_16 data 0 = 0x2189.
Proof. cbn zeta. split; [|split]; [repeat constructor| |vm_compute; reflexivity]; unfold is_u8, is_u16; lia. Qed.

(** C08: computing in pieces is computing over the concatenation. *)
Theorem C08_kermit_incremental : forall d1 d2 crc,
  kermit_16 (d1 ++ d2) crc = kermit_16 d2 (kermit_16 d1 crc).
Proof. exact kermit_16_app. Qed.
Print Assumptions C08_kermit_incremental.

Theorem C08_kermit_fits : forall data crc,
  octets data -> is_u16 crc -> 0 <= kermit_16 data crc <= 65535.
Proof.
  intros. pose proof (kermit_16_range data crc H H0) as R. unfold is_u16 in R. lia.
Qed.
Print Assumptions C08_kermit_fits.

(** C09: two equal length strings differing only inside a 16 bit window, at any
    bit position, have different CRCs. *)
Theorem C09_kermit_detects_bursts : forall m1 m2 crc i,
  octets m1 -> octets m2 -> is_u16 crc -> length m1 = length m2 ->
  m1 <> m2 ->
  (forall j, (j < i \/ i + 16 <= j)%nat -> message_bit m1 j = message_bit m2 j) ->
  kermit_16 m1 crc <> kermit_16 m2 crc.
Proof. exact kermit_burst. Qed.
Print Assumptions C09_kermit_detects_bursts.

Example C09_kermit_detects_bursts_ex :
  let m1 := [0x12; 0x34; 0x56; 0x78] in
  let m2 := [0x12; 0xb4; 0xaa; 0x07] in
  octets m1 /\ octets m2 /\ length m1 = length m2 /\ m1 <> m2 /\
  (forall j, (j < 15 \/ 15 + 16 <= j)%nat -> message_bit m1 j = message_bit m2 j) /\
  kermit_16 m1 0 = 26608 /\ kermit_16 m2 0 = 13764.
Proof.
  cbn zeta. repeat split; try (repeat constructor; unfold is_u8; lia); try discriminate.
  - intros j Hj. do 32 (destruct j as [|j]; [try lia; reflexivity|]).
    unfold message_bit. rewrite !nth_overflow; [reflexivity| |]; cbn [length];
      apply PeanoNat.Nat.div_le_lower_bound; lia.
Qed.

(** C10: encoding then decoding a CRC. *)
Theorem C10_crc_chars_round_trip : forall crc a b c,
  is_u16 crc -> crc2chars crc = (a, b, c) ->
  (32 <= a <= 47 /\ 32 <= b <= 95 /\ 32 <= c <= 95) /\
  (firstisvalid a = true /\ secondisvalid b = true /\ thirdisvalid c = true) /\
  chars2crc a b c = crc.
Proof.
  intros crc a b c H E.
  pose proof (crc2chars_valid crc a b c H E).
  pose proof (crc_round_trip crc a b c H E). tauto.
Qed.
Print Assumptions C10_crc_chars_round_trip.

Example C10_crc_chars_round_trip_ex :
  is_u16 0x2189 /\ crc2chars 0x2189 = (34, 38, 41).
Proof. split; [unfold is_u16; lia | vm_compute; reflexivity]. Qed.

(** C10: decoding then encoding any accepted triple. *)
Theorem C10_chars_crc_round_trip : forall a b c,
  firstisvalid a = true -> secondisvalid b = true -> thirdisvalid c = true ->
  is_u16 (chars2crc a b c) /\ crc2chars (chars2crc a b c) = (a, b, c).
Proof. exact chars_round_trip. Qed.
Print Assumptions C10_chars_crc_round_trip.

Example C10_chars_crc_round_trip_ex :
  firstisvalid 47 = true /\ secondisvalid 95 = true /\ thirdisvalid 33 = true /\
  chars2crc 47 95 33 = 0xffc1.
Proof. vm_compute. repeat split. Qed.

(** C10: the decoder accepts exactly the documented characters. *)
Theorem C10_validity_exact : forall p,
  (firstisvalid p = true <-> 32 <= p <= 47) /\
  (secondisvalid p = true <-> 32 <= p <= 95) /\
  (thirdisvalid p = true <-> 32 <= p <= 95).
Proof.
  intros. unfold thirdisvalid, secondisvalid, firstisvalid.
  rewrite !andb_true_iff, !Z.leb_le. tauto.
Qed.
Print Assumptions C10_validity_exact.

(** C11: Fletcher-16 is the sum and the weighted sum modulo 255. *)
Theorem C11_fletcher_value : forall data a b,
  octets data -> is_u8 a -> is_u8 b -> data <> [] ->
  fletcher_16 data a b =
  ((a + sum data) mod 255,
   (b + Z.of_nat (length data) * a + weighted data) mod 255).
Proof. exact fletcher_16_spec. Qed.
Print Assumptions C11_fletcher_value.

Theorem C11_fletcher_empty : forall a b,
  is_u8 a -> is_u8 b -> fletcher_16 [] a b = (a, b).
Proof. exact fletcher_16_nil. Qed.
Print Assumptions C11_fletcher_empty.

(** The published Fletcher-16 test vector "abcde" = 0xC8F0. *)
Example C11_fletcher_value_ex :
  let data := [97; 98; 99; 100; 101] in
  octets data /\ data <> [] /\
  fletcher_16 data 0 0 = (0xf0, 0xc8) /\ fletcher_result (fletcher_16 data 0 0) = 0xc8f0.
Proof.
  cbn zeta. repeat split; try (repeat constructor; unfold is_u8; lia); discriminate.
Qed.

(** C11: computing in pieces. *)
Theorem C11_fletcher_incremental : forall d1 d2 a b,
  octets d1 -> octets d2 -> is_u8 a -> is_u8 b ->
  fletcher_16 (d1 ++ d2) a b =
  fletcher_16 d2 (fst (fletcher_16 d1 a b)) (snd (fletcher_16 d1 a b)).
Proof. exact fletcher_16_app. Qed.
Print Assumptions C11_fletcher_incremental.

(** C11: both halves are below 255. *)
Theorem C11_fletcher_bound : forall data a b,
  octets data -> is_u8 a -> is_u8 b -> data <> [] ->
  0 <= fst (fletcher_16 data a b) < 255 /\ 0 <= snd (fletcher_16 data a b) < 255.
Proof. exact fletcher_16_bound. Qed.
Print Assumptions C11_fletcher_bound.

(** C11: the value returned packs the two halves, sum of sums on top. *)
Theorem C11_fletcher_result : forall a b,
  is_u8 a -> is_u8 b -> fletcher_result (a, b) = 256 * b + a.
Proof.
  intros a b Ha Hb. unfold fletcher_result, u16, is_u8 in *. cbn [fst snd].
  rewrite Z.shiftl_mul_pow2 by lia. rewrite Z.mod_small by lia.
  rewrite lor_disjoint by lia. lia.
Qed.
Print Assumptions C11_fletcher_result.

(** C11: a change of one octet is detected unless it exchanges 0x00 and 0xff. *)
Theorem C11_fletcher_detects_one : forall pre x y post a b,
  octets pre -> octets post -> is_u8 x -> is_u8 y -> is_u8 a -> is_u8 b ->
  x <> y -> ~ (x = 0 /\ y = 255) -> ~ (x = 255 /\ y = 0) ->
  fletcher_16 (pre ++ x :: post) a b <> fletcher_16 (pre ++ y :: post) a b.
Proof. exact fletcher_single. Qed.
Print Assumptions C11_fletcher_detects_one.

(** The exception is real: the sum modulo 255 cannot tell 0x00 from 0xff. *)
Theorem C11_fletcher_detects_one_refuted : exists x y,
  is_u8 x /\ is_u8 y /\ x <> y /\ fletcher_16 [x; 7] 0 0 = fletcher_16 [y; 7] 0 0.
Proof. exists 0, 255. vm_compute. repeat split; discriminate. Qed.
Print Assumptions C11_fletcher_detects_one_refuted.
