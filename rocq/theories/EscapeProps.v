(** Properties C23, C24 and C47. *)

From Coq Require Import ZArith List Bool Lia.
From Verif Require Import CInt EscapeModel EscapeSpec EscapeProofs.
Import ListNotations.
Local Open Scope Z_scope.

(** Every text has one meaning. *)
Theorem C23_meaning : forall s, text s -> exists m, reads s m /\ forall m', reads s m' -> m' = m.
Proof.
  intros s Ht. destruct (reads_total (length s) s (le_n _) Ht) as (m & R). exists m. split; [exact R|].
  intros m' R'. symmetry. exact (reads_det s m Ht R m' R').
Qed.
Print Assumptions C23_meaning.

(** Collapsing a string writes the meaning of the text, as much of it as fits, and
    a NUL; never more than the size given; the source is read only up to its NUL. *)
Theorem C23_collapse : forall s m r tsize, text s -> reads s m -> 1 <= tsize ->
  exists out, collapse (s ++ 0 :: r) tsize = Some (out ++ [0]) /\
    out = firstn (Z.to_nat (tsize - 1)) m /\ Z.of_nat (length (out ++ [0])) <= tsize.
Proof.
  intros s m r tsize Ht R Hs. exists (firstn (Z.to_nat (tsize - 1)) m). split; [apply collapse_spec; assumption|].
  split; [reflexivity|]. rewrite app_length, firstn_length. cbn. lia.
Qed.
Print Assumptions C23_collapse.

(** Expanding a buffer writes the escape sequences of its first octets, as many of
    them as fit entirely, and a NUL; never more than the size given. *)
Theorem C23_expand : forall l r tsize special, octets l -> 1 <= tsize ->
  exists k, (k <= length l)%nat /\
    expand (l ++ r) tsize (length l) special = Some (expansion special (firstn k l) ++ [0]) /\
    Z.of_nat (length (expansion special (firstn k l) ++ [0])) <= tsize /\
    (k = length l \/ tsize < Z.of_nat (length (expansion special (firstn (S k) l) ++ [0]))).
Proof.
  intros l r tsize special Ho Ht. destruct (expand_spec l r tsize special Ho Ht) as (k & K1 & K2 & K3 & K4).
  exists k. rewrite !app_length. cbn [length]. split; [exact K1|]. split; [exact K2|]. split; [lia|].
  destruct K4; [left; assumption|right; lia].
Qed.
Print Assumptions C23_expand.

(** Nothing is written to a destination of no octets. *)
Theorem C23_no_room : forall from fsize special, (fsize <= length from)%nat ->
  collapse from 0 = Some [] /\ expand from 0 fsize special = Some [].
Proof. intros. split; [apply collapse_zero|apply expand_zero; assumption]. Qed.
Print Assumptions C23_no_room.

(** What expanding writes is printable ASCII. *)
Theorem C23_expand_printable : forall special l, octets l -> (forall y, In y (specials special) -> 32 <= y <= 126) ->
  Forall (fun x => 32 <= x <= 126) (expansion special l).
Proof.
  intros special l Ho Hs. apply Forall_forall. intros x Q. unfold expansion in Q. apply in_flat_map in Q. destruct Q as (c & I & Q).
  unfold octets in Ho. rewrite Forall_forall in Ho. exact (escape_printable _ _ _ (Ho c I) Hs Q).
Qed.
Print Assumptions C23_expand_printable.

(** Expanding and then collapsing gives the buffer back, when both destinations
    are large enough, no NUL in it is followed by an octal digit, and no special
    character has a meaning of its own after a backslash. *)
Theorem C24_round_trip : forall l special s1 s2 r,
  octets l -> nul_safe l -> special_safe (specials special) ->
  4 * Z.of_nat (length l) < s1 -> Z.of_nat (length l) < s2 ->
  exists e, expand (l ++ r) s1 (length l) special = Some e /\ collapse e s2 = Some (l ++ [0]).
Proof.
  intros l special s1 s2 r Ho Hn Hs H1 H2. apply round_trip; auto.
  assert (Q : forall l, (length (expansion special l) <= 4 * length l)%nat).
  { clear. induction l as [|c l IH]; [cbn; lia|]. unfold expansion in *. cbn [flat_map]. rewrite app_length.
    assert (length (escape (specials special) c) <= 4)%nat; [|cbn [length]; lia].
    unfold escape. destruct (find _ _) as [[a b]|]; [cbn; lia|]. destruct (existsb _ _); [cbn; lia|]. destruct (_ && _); cbn; lia. }
  specialize (Q l). lia.
Qed.
Print Assumptions C24_round_trip.

(** Without the restrictions it does not. A NUL before an octal digit: *)
Theorem C24_nul_digit_refuted : exists e, expand [0; 55] 100 2 None = Some e /\ collapse e 100 = Some [7; 0].
Proof. eexists. split; vm_compute; reflexivity. Qed.
Print Assumptions C24_nul_digit_refuted.

(** A special character that is a letter used in escape sequences: *)
Theorem C24_special_letter_refuted :
  exists e, expand [110] 100 1 (Some [110]) = Some e /\ collapse e 100 = Some [10; 0].
Proof. eexists. split; vm_compute; reflexivity. Qed.
Print Assumptions C24_special_letter_refuted.

Example C24_example :
  let l := [0; 7; 104; 34; 92; 200; 57; 10; 127] in
  octets l /\ special_safe [34] /\ nul_safe l /\
  expand l 100 9 (Some [34]) = Some [92; 48; 92; 97; 104; 92; 34; 92; 92; 92; 120; 99; 56; 57; 92; 110; 92; 120; 55; 102; 0] /\
  collapse [92; 48; 92; 97; 104; 92; 34; 92; 92; 92; 120; 99; 56; 57; 92; 110; 92; 120; 55; 102; 0] 100 = Some (l ++ [0]) /\
  collapse [97; 92; 120; 52; 49; 92; 120; 122; 92; 49; 48; 49; 49; 92; 0] 100 = Some [97; 65; 92; 120; 122; 65; 49; 0] /\
  collapse [97; 98; 99; 0] 3 = Some [97; 98; 0] /\ expand [97; 10; 98] 4 3 None = Some [97; 92; 110; 0].
Proof.
  cbv zeta. split; [repeat (apply Forall_cons; [red; lia|]); apply Forall_nil|]. split.
  { intros c [<-|[]]. split; [lia|]. split; [unfold octal; lia|]. intros x H. cbn in H. repeat (destruct H as [H|H]; [discriminate|]). destruct H. }
  split; [apply nul_safeb_ok; reflexivity|].
  repeat (split; [vm_compute; reflexivity|]). vm_compute. reflexivity.
Qed.

(** Trimming: the text without its trailing blanks, but with one of them if
    exactly one backslash precedes it; as much of it as fits, and a NUL; the length
    without the NUL is returned. *)
Theorem C47_trim : forall s r fsize tsize, text s -> (length s <= fsize)%nat -> (1 <= tsize)%nat ->
  exists s', trimmed s s' /\ forall n, ends_with_backslashes s' n ->
    let full := if Nat.eqb n 1 && negb (Nat.eqb (length s') (length s)) then s' ++ [32] else s' in
    let out := firstn (tsize - 1) full in
    trim (s ++ 0 :: r) tsize fsize = Some (out ++ [0], length out) /\ (length (out ++ [0%Z]) <= tsize)%nat.
Proof.
  intros s r fsize tsize Ht Hf Hs. exists (firstn (trim_loop (s ++ 0 :: r) (length s)) s).
  split; [apply (trim_loop_spec (length s) s (0 :: r)); reflexivity|].
  intros n He. cbv zeta. rewrite (trim_full s r fsize tsize Ht ltac:(lia) Hs). cbv zeta.
  rewrite (trim_size_meaning s r n); [|intros s' _ ->; exact He]. cbv zeta. split; [reflexivity|].
  rewrite app_length, firstn_length. cbn [length]. lia.
Qed.
Print Assumptions C47_trim.

(** A blank after three backslashes is escaped too (an escaped backslash, then an
    escaped blank), but it is lost. *)
Theorem C47_three_backslashes_refuted :
  trimmed [97; 92; 92; 92; 32] [97; 92; 92; 92] /\ ends_with_backslashes [97; 92; 92; 92] 3 /\
  trim [97; 92; 92; 92; 32; 0] 10 10 = Some ([97; 92; 92; 92; 0], 4%nat).
Proof.
  split; [exists 1%nat; split; [reflexivity|right; discriminate]|].
  split; [exists [97]; split; [reflexivity|right; discriminate]|]. reflexivity.
Qed.
Print Assumptions C47_three_backslashes_refuted.

Example C47_example :
  trim [97; 98; 32; 32; 0] 10 10 = Some ([97; 98; 0], 2%nat) /\
  trim [97; 92; 32; 32; 0] 10 10 = Some ([97; 92; 32; 0], 3%nat) /\
  trim [97; 92; 92; 32; 0] 10 10 = Some ([97; 92; 92; 0], 3%nat) /\
  trim [97; 98; 99; 32; 0] 3 10 = Some ([97; 98; 0], 2%nat).
Proof. vm_compute. auto. Qed.

(** A string is reported printable exactly if all its characters are (C locale;
    characters of 128 and above are outside the contract of isprint). *)
Theorem C47_printable : forall s r, text s -> Forall (fun c => 0 <= c < 128) s ->
  exists b, printable (s ++ 0 :: r) = Some b /\ (b = true <-> Forall (fun c => 32 <= c <= 126) s).
Proof. exact printable_spec. Qed.
Print Assumptions C47_printable.
