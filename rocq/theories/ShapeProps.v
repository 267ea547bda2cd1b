(** Property theorems for the shaping utilities. *)

From Coq Require Import ZArith List Bool Lia.
From Verif Require Import CInt CUtil ChecksumModel ChecksumSpec ChecksumProofs ThrottleModel ThrottleSpec ThrottleProofs ThrottleProps ShapeModel ShapeSpec ShapeProofs.
Import ListNotations.
Local Open Scope Z_scope.

(** C84: the options that are used: those given if there are both rates and a burst size,
    and otherwise one rate for both; refused if the sustained rate is the higher. *)
Theorem C84_options : forall p s m, 0 <= p -> 0 <= s -> 0 <= m ->
  (0 < s <= p -> 0 < m -> options p s m = Some (p, s, m)) /\
  (0 < p < s -> 0 < m -> options p s m = None) /\
  (0 < p -> options p 0 m = Some (p, p, 0)) /\ (0 < s -> options 0 s m = Some (s, s, 0)) /\
  (0 < p -> 0 < s -> options p s 0 = Some (s, s, 0)).
Proof.
  intros p s m P S M. unfold options. rewrite Z.gtb_ltb. repeat split; intros.
  - destruct (Z.eqb_spec s 0), (Z.eqb_spec p 0), (Z.eqb_spec m 0), (Z.ltb_spec p s); lia || reflexivity.
  - destruct (Z.eqb_spec s 0), (Z.eqb_spec p 0), (Z.eqb_spec m 0), (Z.ltb_spec p s); lia || reflexivity.
  - destruct (Z.eqb_spec s 0); [lia|]. reflexivity.
  - destruct (Z.eqb_spec s 0), (Z.eqb_spec p 0); lia || reflexivity.
Qed.
Print Assumptions C84_options.

(** C84: and then nothing is read or written. *)
Theorem C84_refused : forall frequency p s m jitter epoch reads writes polls, 0 < p < s -> 0 < m ->
  tool frequency p s m jitter epoch reads writes polls = Some (1, [], [], Report 0 0 0 0 0).
Proof. intros. unfold tool. rewrite (proj1 (proj2 (C84_options p s m ltac:(lia) ltac:(lia) ltac:(lia)))) by assumption. reflexivity. Qed.
Print Assumptions C84_refused.

(** C84: between any two blocks that are written, the octets of the first and of all those
    between them are no more than either rate allows in the time that has passed and the
    tolerance. [p] and [s] are the rates used, and all is in ticks: to write n octets at the
    rate p takes n times the frequency over p. *)
Theorem C84_rate : forall frequency peakrate sustainedrate maximum jitter epoch reads writes polls p s m xc out times r blocksize pre t1 n1 mid tj nj post,
  0 < frequency < 2 ^ 64 -> 0 <= jitter -> options peakrate sustainedrate maximum = Some (p, s, m) -> 1 <= p -> 1 <= s -> 0 <= m < 2 ^ 64 ->
  ticking epoch epoch polls -> Forall (fun b => Z.of_nat (length b) <= blocksize) (supplied reads) ->
  let burst := (m - 1) * (interarrivaltime s 1 frequency - interarrivaltime p 1 frequency) in
  let tolerance := jitter + if (m <=? 1) || (burst <=? 0) then 0 else burst in
  tolerance + blocksize * frequency < 2 ^ 64 ->
  tool frequency peakrate sustainedrate maximum jitter epoch reads writes polls = Some (xc, out, times, r) ->
  times = pre ++ (t1, n1) :: mid ++ (tj, nj) :: post ->
  (n1 + amount mid) * frequency <= p * (tj - t1 + jitter) /\ (n1 + amount mid) * frequency <= s * (tj - t1 + tolerance).
Proof.
  intros frequency peakrate sustainedrate maximum jitter epoch reads writes polls p s m xc out times r blocksize pre t1 n1 mid tj nj post FR J OP P S M T F burst tolerance SZ E X.
  unfold tool in E. rewrite OP in E. unfold shaper_of in E. destruct (shape_client _ _ _ _ _ _ _ _ _ E) as (attempts & rest & PL & FA & TI). rewrite PL in T. destruct (ticking_clock _ _ _ _ T) as (C & W).
  destruct (C18_interarrivaltime p 1 frequency P ltac:(lia) ltac:(lia) ltac:(lia)) as (IP & RP). destruct (C18_interarrivaltime s 1 frequency S ltac:(lia) ltac:(lia) ltac:(lia)) as (IS & RS). cbv zeta in IP, RP, IS, RS.
  set (pi := interarrivaltime p 1 frequency) in *. set (si := interarrivaltime s 1 frequency) in *.
  assert (PF : pi <= frequency) by nia. assert (SF : si <= frequency) by nia.
  assert (B0 : 0 <= tolerance - jitter). { unfold tolerance. destruct (Z.leb_spec m 1); cbn [orb]; [lia|]. destruct (Z.leb_spec burst 0); lia. }
  assert (BT : 0 <= blocksize -> bursttolerance pi jitter si m = tolerance).
  { intros BS. unfold bursttolerance, tolerance. assert (TB : tolerance < 2 ^ 64) by nia. destruct (Z.leb_spec m 1) as [M1|M1]; cbn [orb]; [unfold u64; rewrite Z.mod_small; lia|].
    destruct (Z.leb_spec si pi) as [Q|Q]; destruct (Z.leb_spec burst 0) as [Q'|Q']; unfold burst in Q'; try nia; try (unfold u64; rewrite Z.mod_small; lia).
    assert (TE : tolerance = jitter + burst). { unfold tolerance. destruct (Z.leb_spec m 1); [lia|]. destruct (Z.leb_spec burst 0); [unfold burst in *; lia|reflexivity]. }
    unfold burst in TE. unfold u64. rewrite (Z.mod_small (m - 1)) by lia. rewrite (Z.mod_small (si - pi)) by lia. rewrite (Z.mod_small (_ * _)) by nia. rewrite Z.mod_small by nia. fold burst. unfold burst. lia. }
  assert (BS : 0 <= blocksize).
  { destruct attempts as [|a attempts]; [cbn in TI; subst times; destruct pre; discriminate|]. inversion FA as [|? ? (b & I & _) _]; subst. rewrite Forall_forall in F. specialize (F b I). lia. }
  rewrite (BT BS) in TI. rewrite TI in X.
  assert (Z1 : forall i l, 0 <= i <= frequency -> 0 <= l <= tolerance -> sizes i l attempts).
  { intros i l I L. unfold sizes. eapply Forall_impl; [|exact FA]. intros a (b & IB & Q). rewrite Forall_forall in F. specialize (F b IB). rewrite Q. split; [lia|]. assert (Z.of_nat (length b) * i <= blocksize * frequency) by nia. lia. }
  destruct (C18_shaper pi jitter si tolerance epoch attempts pre t1 n1 mid tj nj post ltac:(lia) J ltac:(lia) ltac:(lia) C W (Z1 pi jitter ltac:(lia) ltac:(lia)) (Z1 si tolerance ltac:(lia) ltac:(lia)) X) as (A & B).
  rewrite amount_total. assert (ME : Forall (fun x => 0 <= snd x) (shaper_client (shaper_init pi jitter si tolerance (u64 epoch)) attempts)).
  { assert (G : forall l st, Forall (fun a => 0 <= snd a) l -> Forall (fun x => 0 <= snd x) (shaper_client st l)).
    { induction l as [|(t & n) l IH]; intros st Q; [constructor|]. inversion Q; subst. cbn [shaper_client]. destruct (shaper_request st (u64 t)) as (s1 & d). destruct (d =? 0); [constructor; [assumption|]|]; apply IH; assumption. }
    apply G. eapply Forall_impl; [|exact FA]. intros a (b & _ & ->). lia. }
  rewrite X in ME. apply Forall_app in ME. destruct ME as (_ & ME). inversion ME as [|? ? N1 ME']; subst. cbn [snd] in N1. apply Forall_app in ME'. destruct ME' as (ME' & _).
  assert (TM : 0 <= ThrottleSpec.total mid). { unfold ThrottleSpec.total. clear -ME'. induction mid as [|(t & n) mid IH]; cbn; [lia|]. inversion ME'; subst. cbn [snd] in *. specialize (IH ltac:(assumption)). lia. }
  set (n := n1 + ThrottleSpec.total mid) in *. assert (0 <= n) by lia. split.
  - transitivity (n * (pi * p)); [apply Z.mul_le_mono_nonneg_l; lia|]. nia.
  - transitivity (n * (si * s)); [apply Z.mul_le_mono_nonneg_l; lia|]. nia.
Qed.
Print Assumptions C84_rate.

(** C84: what is written is what was read, in order, as far as it goes; and it is all of it
    if no write failed, with the exit code of how the input ended. *)
Theorem C84_order : forall frequency peakrate sustainedrate maximum jitter epoch reads writes polls xc out times r,
  tool frequency peakrate sustainedrate maximum jitter epoch reads writes polls = Some (xc, out, times, r) ->
  (whole writes (supplied reads) -> prefix out (concat (supplied reads))) /\
  (xc <> 1 -> works writes (supplied reads) -> Forall (fun b => b <> []) (supplied reads) ->
   out = concat (supplied reads) /\ Some xc = ending reads /\ map snd times = map (fun b => Z.of_nat (length b)) (supplied reads)).
Proof.
  intros frequency peakrate sustainedrate maximum jitter epoch reads writes polls xc out times r E. unfold tool in E. destruct (options peakrate sustainedrate maximum) as [((p & s) & m)|].
  - destruct (shape_count _ _ _ _ _ _ _ _ _ E) as (L1 & L2). split.
    + intros W. apply (proj1 (shape_out _ _ _ _ _ _ _ _ _ E (firstn_Forall2 _ _ _ _ L1 L2 W))).
    + intros _ W N. apply (shape_out _ _ _ _ _ _ _ _ _ E).
      * apply firstn_Forall2; [exact L1|exact L2|]. intros i a b A B. right. exact (W i a b A B).
      * apply (firstn_Forall _ _ _ (supplied reads) L2). intros i a b A B. rewrite (W i a b A B). apply nth_error_In in B. rewrite Forall_forall in N. specialize (N b B). destruct b; [contradiction|cbn [length]; lia].
  - injection E as <- <- <- <-. split; [exists (concat (supplied reads)); reflexivity|]. intros Q. contradiction.
Qed.
Print Assumptions C84_order.

(** C84: what is reported: the number of blocks and of octets, the largest block, and the
    checksum of all that was read, as if it had been computed at once. *)
Theorem C84_report : forall frequency peakrate sustainedrate maximum jitter epoch reads writes polls xc out times r,
  tool frequency peakrate sustainedrate maximum jitter epoch reads writes polls = Some (xc, out, times, r) -> octets (concat (supplied reads)) ->
  let blocks := firstn (length times) (supplied reads) in
  ios r = Z.of_nat (length blocks) mod 2 ^ 64 /\ octets_ r = Z.of_nat (length (concat blocks)) mod 2 ^ 64 /\
  Forall (fun b => Z.of_nat (length b) <= largest r) blocks /\ (blocks <> [] -> Exists (fun b => Z.of_nat (length b) = largest r) blocks) /\
  fletcher_a r = sum (concat blocks) mod 255 /\ fletcher_b r = weighted (concat blocks) mod 255.
Proof.
  intros frequency peakrate sustainedrate maximum jitter epoch reads writes polls xc out times r E F blocks. unfold tool in E.
  assert (R : r = tally (Report 0 0 0 0 0) blocks). { destruct (options peakrate sustainedrate maximum) as [((p & s) & m)|]; [exact (shape_report _ _ _ _ _ _ _ _ _ E)|]. injection E as _ _ <- <-. reflexivity. }
  rewrite R. split; [rewrite tally_ios by (cbn; lia); reflexivity|]. split; [rewrite tally_octets by (cbn; lia); reflexivity|].
  destruct (tally_largest blocks (Report 0 0 0 0 0) ltac:(cbn; lia)) as (_ & A & B). split; [exact A|]. split.
  { intros N. destruct B as [B|B]; [|exact B]. cbn [largest] in B. destruct blocks as [|b l]; [contradiction|]. inversion A; subst. left. lia. }
  assert (FB : octets (concat blocks)). { unfold blocks. rewrite <- (firstn_skipn (length times) (supplied reads)) in F. rewrite concat_app in F. apply Forall_app in F. exact (proj1 F). }
  pose proof (tally_fletcher blocks (Report 0 0 0 0 0) FB ltac:(cbn; unfold is_u8; lia) ltac:(cbn; unfold is_u8; lia)) as Q. cbn [fletcher_a fletcher_b] in Q.
  destruct (list_eq_dec Z.eq_dec (concat blocks) []) as [N|N].
  - rewrite N in *. rewrite fletcher_16_nil in Q by (unfold is_u8; lia). injection Q as -> ->. split; reflexivity.
  - rewrite fletcher_16_spec in Q; try assumption; try (unfold is_u8; lia). injection Q as -> ->. split; f_equal; lia.
Qed.
Print Assumptions C84_report.

(** C84, what fails. Without a burst size the peak rate that is given is not used: it may be
    exceeded ten times. *)
Theorem C84_peak_refuted : exists peakrate sustainedrate p s m, 1 <= peakrate /\ options peakrate sustainedrate 0 = Some (p, s, m) /\ p >= 10 * peakrate /\
  exists polls times r, ticking 0 0 polls /\
  tool 1000000000 peakrate sustainedrate 0 0 0 [Data (repeat 0 100); Data [0]; End] [100; 1] polls = Some (0, repeat 0 100 ++ [0], times, r) /\
  times = [(0, 100); (100000000, 1)] /\ ~ (100 * 1000000000 <= peakrate * (100000000 - 0)).
Proof.
  exists 100, 1000, 1000, 1000, 0. split; [lia|]. split; [reflexivity|]. split; [lia|]. exists [0; 100000000]. do 2 eexists. split; [cbn; lia|]. split; [vm_compute; reflexivity|]. split; [reflexivity|lia].
Qed.
Print Assumptions C84_peak_refuted.

(** Without any rate it is one octet per second that passes, and not as it comes. *)
Theorem C84_default_refuted : forall frequency maximum jitter epoch reads writes polls,
  tool frequency 0 0 maximum jitter epoch reads writes polls = tool frequency 1 1 0 jitter epoch reads writes polls.
Proof. intros. reflexivity. Qed.
Print Assumptions C84_default_refuted.

(** A write that is short, as one is that fails after some of it was written, is passed
    over: the rest of its block is lost, and the exit code is that of success. *)
Theorem C84_short_refuted : exists reads writes polls times r, ticking 0 0 polls /\
  tool 1000 1000 0 0 0 0 reads writes polls = Some (0, [1; 2; 4], times, r) /\ concat (supplied reads) = [1; 2; 3; 4].
Proof. exists [Data [1; 2; 3]; Data [4]; End], [2; 1], [0; 5]. do 2 eexists. split; [cbn; lia|]. split; [vm_compute; reflexivity|reflexivity]. Qed.
Print Assumptions C84_short_refuted.

(** Two blocks at a thousand octets per second; the second has to wait. *)
Example C84_example : exists times r, ticking 0 0 [0; 1; 2; 3] /\ options 1000 500 2 = Some (1000, 500, 2) /\
  tool 1000 1000 500 2 0 0 [Data [1; 2]; Interrupted; Data [3]; End] [2; 1] [0; 1; 2; 3] = Some (0, [1; 2; 3], times, r) /\
  times = [(0, 2); (3, 1)] /\ whole [2; 1] [[1; 2]; [3]] /\ works [2; 1] [[1; 2]; [3]] /\ octets_ r = 3 /\ largest r = 2.
Proof.
  do 2 eexists. split; [cbn; lia|]. split; [reflexivity|]. split; [vm_compute; reflexivity|]. split; [reflexivity|].
  assert (W : works [2; 1] [[1; 2]; [3]]) by (intros [|[|[|i]]] w b A B; cbn in A, B; try discriminate A; injection A as <-; injection B as <-; reflexivity).
  split; [intros i w b A B; right; exact (W i w b A B)|]. split; [exact W|]. split; reflexivity.
Qed.

(** C85: in block and in character mode all that is read is written, as long as it can be,
    for every buffer size; in line mode if there is no NUL in it and the buffer holds more
    than the NUL. What is written is a prefix in any case, and it is all if the exit code is
    that of success. *)
Theorem C85_copy : forall mode size stdin bad ok,
  match mode with Line => (2 <= size)%nat /\ ~ In 0 stdin | _ => (1 <= size)%nat end ->
  exists xc out, copy (S (length stdin)) mode size stdin bad ok = Some (xc, out) /\ prefix out stdin /\
    ((forall n, ok n = true) -> out = stdin /\ xc = if bad then 3 else 0) /\ (xc = 0 -> out = stdin /\ bad = false).
Proof. intros mode size stdin bad ok C. apply copy_spec; [exact C|lia]. Qed.
Print Assumptions C85_copy.

(** In line mode a NUL ends what is written of its line, and one at its begin ends all. *)
Theorem C85_nul_refuted :
  copy 10 Line 8 [1; 0; 2; 10; 3; 10] false (fun _ => true) = Some (0, [1; 3; 10]) /\
  copy 10 Line 8 [0; 2; 10; 3; 10] false (fun _ => true) = Some (3, []).
Proof. split; reflexivity. Qed.
Print Assumptions C85_nul_refuted.

(** In line mode with a buffer of one octet nothing passes. *)
Theorem C85_size_refuted : forall stdin bad ok fuel, copy (S fuel) Line 1 stdin bad ok = Some (3, []).
Proof. intros. reflexivity. Qed.
Print Assumptions C85_size_refuted.

Example C85_example : copy 10 Line 4 [1; 2; 10; 3; 4; 5; 6; 10; 7] false (fun _ => true) = Some (0, [1; 2; 10; 3; 4; 5; 6; 10; 7]) /\
  copy 10 Block 4 [1; 0; 10; 3; 4; 5] false (fun n => Nat.eqb n 0) = Some (4, [1; 0; 10; 3]).
Proof. split; reflexivity. Qed.
