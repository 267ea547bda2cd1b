(** Property C103. *)

From Coq Require Import ZArith List Bool Lia.
From Verif Require Import CInt CUtil RealtimeModel RealtimeSpec RealtimeProofs.
Import ListNotations.
Local Open Scope Z_scope.

(** The kernel is said to be a realtime kernel if and only if the file can be opened, begins
    with a number above zero, and can be closed. *)
Theorem C103_yes : forall path fopen fclose, is_supported_path path fopen fclose = Some (1, 0) <->
  exists p cs e n, path = Some p /\ fopen p = Open (Stream cs) e /\ begins_with cs n /\ 0 < n /\ is_int n /\ fclose = true.
Proof.
  intros path fopen fclose. unfold is_supported_path. split.
  - intros H. destruct path as [p|]; [|discriminate]. destruct (fopen p) as [[cs|u] e|e] eqn:O; [| |destruct (e =? 2); discriminate].
    + cbn [is_supported_fp] in H. destruct (fscanf cs) as [| |n] eqn:S.
      * destruct (e =? 0), fclose; discriminate.
      * destruct fclose; discriminate.
      * apply fscanf_number in S. destruct ((n <? -2147483648) || (2147483647 <? n)) eqn:R; [discriminate|]. apply orb_false_iff in R. destruct R as (R1 & R2). apply Z.ltb_ge in R1, R2.
        destruct (Z.leb_spec n 0); destruct fclose; try discriminate. exists p, cs, e, n. repeat split; assumption || lia.
    + cbn [is_supported_fp] in H. destruct (u =? 0), fclose; discriminate.
  - intros (p & cs & e & n & -> & O & B & P & I & ->). rewrite O. cbn [is_supported_fp]. apply fscanf_number in B. rewrite B. unfold is_int in I.
    destruct (Z.ltb_spec n (-2147483648)); [lia|]. destruct (Z.ltb_spec 2147483647 n); [lia|]. destruct (Z.leb_spec n 0); [lia|]. reflexivity.
Qed.
Print Assumptions C103_yes.

(** If there is no such file, or if it begins with a number that is not above zero, or with
    anything that is no number, or is blank and no error number is left from before, then it
    is said not to be; and that is an error only if the file cannot be closed. *)
Theorem C103_no : forall p fopen fclose,
  (fopen p = NotOpen 2 -> is_supported_path (Some p) fopen fclose = Some (0, 0)) /\
  (forall cs e, fopen p = Open (Stream cs) e ->
    (exists n, begins_with cs n /\ n <= 0 /\ is_int n) \/ (~ blank cs /\ forall n, ~ begins_with cs n) \/ (blank cs /\ e = 0) ->
    is_supported_path (Some p) fopen fclose = Some (if fclose then 0 else -1, 0)).
Proof.
  intros p fopen fclose. unfold is_supported_path. split; [intros ->; reflexivity|]. intros cs e ->. cbn [is_supported_fp]. intros [(n & B & N & I) | [(NB & NN) | (B & ->)]].
  - apply fscanf_number in B. rewrite B. unfold is_int in I. destruct (Z.ltb_spec n (-2147483648)); [lia|]. destruct (Z.ltb_spec 2147483647 n); [lia|]. destruct (Z.leb_spec n 0); [|lia].
    destruct fclose; reflexivity.
  - destruct (fscanf cs) as [| |n] eqn:S; [apply fscanf_eof in S; contradiction|destruct fclose; reflexivity|apply fscanf_number in S; destruct (NN n S)].
  - apply fscanf_eof in B. rewrite B. destruct fclose; reflexivity.
Qed.
Print Assumptions C103_no.

(** No path, no stream, a file that is there and cannot be opened, one that cannot be read, and one that
    cannot be closed are errors. *)
Theorem C103_error : forall p fopen fclose,
  is_supported_path None fopen fclose = Some (-1, 0) /\ (forall e, is_supported_fp e None = Some (-1)) /\
  (forall e, fopen p = NotOpen e -> e <> 2 -> is_supported_path (Some p) fopen fclose = Some (-1, 0)) /\
  (forall u e, fopen p = Open (Unreadable u) e -> u <> 0 -> is_supported_path (Some p) fopen fclose = Some (-1, 0)) /\
  (forall r, fclose = false -> (exists s e, fopen p = Open s e) -> is_supported_path (Some p) fopen fclose = Some r -> r = (-1, 0)).
Proof.
  intros p fopen fclose. unfold is_supported_path. split; [reflexivity|]. split; [reflexivity|]. split; [|split].
  - intros e -> N. destruct (Z.eqb_spec e 2); [contradiction|reflexivity].
  - intros u e -> N. cbn [is_supported_fp]. destruct (Z.eqb_spec u 0); [contradiction|]. destruct fclose; reflexivity.
  - intros r -> (s & e & ->). destruct (is_supported_fp e (Some s)); cbn [bind]; [|discriminate]. intros H. injection H as <-. reflexivity.
Qed.
Print Assumptions C103_error.

(** A blank file is an error if errno happens to be anything but zero beforehand, since it is
    not cleared before it is asked; and a number beyond the range of an int is undefined. *)
Theorem C103_stale_refuted : forall p fopen fclose cs e, fopen p = Open (Stream cs) e ->
  (blank cs -> e <> 0 -> is_supported_path (Some p) fopen fclose = Some (-1, 0)) /\
  (forall n, begins_with cs n -> ~ is_int n -> is_supported_path (Some p) fopen fclose = None).
Proof.
  intros p fopen fclose cs e O. unfold is_supported_path. rewrite O. cbn [is_supported_fp]. split.
  - intros B N. apply fscanf_eof in B. rewrite B. destruct (Z.eqb_spec e 0); [contradiction|]. destruct fclose; reflexivity.
  - intros n B N. apply fscanf_number in B. rewrite B. unfold is_int in N. destruct (Z.ltb_spec n (-2147483648)); [reflexivity|]. destruct (Z.ltb_spec 2147483647 n); [reflexivity|lia].
Qed.
Print Assumptions C103_stale_refuted.

(** The file that is asked for by default. *)
Theorem C103_default : forall fopen fclose, is_supported fopen fclose = is_supported_path (Some (octets default_path)) fopen fclose.
Proof. reflexivity. Qed.
Print Assumptions C103_default.

(** The file of a realtime kernel has 1 and a newline; and -12, with spaces before it. *)
Example C103_example : is_supported (fun _ => Open (Stream [49; 10]) 0) true = Some (1, 0) /\ is_supported (fun _ => Open (Stream [32; 9; 45; 49; 50]) 4) true = Some (0, 0) /\
  is_supported (fun _ => NotOpen 2) true = Some (0, 0) /\ is_supported (fun _ => NotOpen 13) true = Some (-1, 0) /\
  is_supported (fun _ => Open (Stream []) 25) true = Some (-1, 0) /\ begins_with [49; 10] 1 /\ begins_with [32; 9; 45; 49; 50] (-12) /\ blank [32; 10].
Proof. repeat split; try reflexivity; try (apply fscanf_number; reflexivity). apply fscanf_eof. reflexivity. Qed.
