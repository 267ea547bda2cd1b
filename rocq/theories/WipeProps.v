(** Property theorems for the wiping of a device. *)

From Coq Require Import ZArith List Bool Lia.
From Verif Require Import CInt CUtil WipeModel WipeSpec WipeProofs.
Import ListNotations.

(** C83: whatever the device does, short writes, refusals and failures included, if the
    utility ends without errors then every word of the device is that of the pattern, all of
    it was written and all of it was read. *)
Theorem C83_sound : forall write read blocksize sectorsize capacity fuel seed cells cells' written total offsets,
  0 < blocksize -> 0 < sectorsize -> takes capacity write -> gives capacity read -> length cells = capacity ->
  wipe write read blocksize sectorsize fuel seed cells = Some (cells', written, total, 0, offsets) ->
  cells' = pattern seed capacity /\ written = capacity /\ total = capacity /\ offsets = [].
Proof.
  intros write read b s C fuel seed cells cells' written total offsets B SP T G L E. unfold wipe in E.
  destruct (write_all write b s fuel seed cells 0 0) as [((c1 & w1) & e1)|] eqn:W; [|discriminate E]. cbn [bind] in E.
  destruct (read_all read b fuel c1 seed 0 e1) as [((t & e2) & o)|] eqn:R; [|discriminate E]. cbn [bind] in E.
  destruct (write_all_safe write b s C B SP T _ _ _ _ _ _ _ _ L (Nat.le_0_l _) W) as (L1 & W1 & _).
  destruct (read_all_sound read b s C B SP G _ _ _ _ _ _ _ _ L1 (Nat.le_0_l _) R) as (M & Q).
  assert (E0 : c1 = cells' /\ w1 = written /\ t = total /\ o = offsets /\ (if t =? w1 then e2 else S e2) = 0) by (injection E as -> -> -> X ->; auto).
  destruct E0 as (-> & -> & -> & -> & Z). destruct (Nat.eqb_spec total written) as [TW|TW]; [|discriminate Z].
  destruct (Q ltac:(lia)) as (T2 & S2 & O2). cbn [skipn] in S2. rewrite Nat.sub_0_r in S2. rewrite pattern_words. repeat split; [exact S2|lia|exact T2|exact O2].
Qed.
Print Assumptions C83_sound.

(** C83: on a device that works, of any capacity and with any block that are multiples of
    the sector, it does end without errors, having written all of it, although the device
    may take blocks in parts and the last block may not fit. *)
Theorem C83_complete : forall write read blocksize sectorsize capacity fuel seed cells j k,
  0 < blocksize -> 0 < sectorsize -> blocksize = j * sectorsize -> capacity = k * sectorsize ->
  writes capacity sectorsize write -> reads capacity read -> length cells = capacity -> capacity + 1 < fuel ->
  wipe write read blocksize sectorsize fuel seed cells = Some (pattern seed capacity, capacity, capacity, 0, []).
Proof.
  intros write read b s C fuel seed cells j k B SP BJ CK W R L F. unfold wipe.
  destruct (write_all_works write b s C B SP k j W CK BJ fuel seed 0 0 cells) as (c & E & EC); [exists 0; reflexivity|lia|exact L|reflexivity|left; reflexivity|lia|].
  cbn [word Nat.iter nat_rect] in E. change (word seed 0) with seed in E. rewrite E. cbn [bind]. rewrite EC.
  change seed with (word seed 0) at 2. rewrite (read_all_works read b s C B SP R) by lia. cbn [bind]. rewrite Nat.eqb_refl, pattern_words. reflexivity.
Qed.
Print Assumptions C83_complete.

(** C83: every failure counts. If there are no errors then no write and no read failed: had
    the device answered anything else where it would have failed, all were the same. *)
Theorem C83_failures : forall write write' read read' blocksize sectorsize fuel seed cells cells' written total offsets,
  (forall p s, write p s <> Failed -> write' p s = write p s) -> (forall p s, read p s <> None -> read' p s = read p s) ->
  wipe write read blocksize sectorsize fuel seed cells = Some (cells', written, total, 0, offsets) ->
  wipe write' read' blocksize sectorsize fuel seed cells = Some (cells', written, total, 0, offsets).
Proof.
  intros write write' read read' b s fuel seed cells cells' written total offsets SW SR E. unfold wipe in *.
  destruct (write_all write b s fuel seed cells 0 0) as [((c1 & w1) & e1)|] eqn:W; [|discriminate E]. cbn [bind] in E.
  destruct (read_all read b fuel c1 seed 0 e1) as [((t & e2) & o)|] eqn:R; [|discriminate E]. cbn [bind] in E.
  destruct (write_all_mono write write' b s SW _ _ _ _ _ _ _ _ W) as (M1 & S1). destruct (read_all_mono read read' b SR _ _ _ _ _ _ _ _ R) as (M2 & S2).
  assert (Z : (if t =? w1 then e2 else S e2) = 0) by congruence. assert (e2 = 0) by (destruct (t =? w1); [exact Z|discriminate Z]).
  rewrite S1 by lia. cbn [bind]. rewrite S2 by lia. exact E.
Qed.
Print Assumptions C83_failures.

(** C83: it ends, whatever the device does. *)
Theorem C83_ends : forall write read blocksize sectorsize capacity fuel seed cells,
  0 < blocksize -> 0 < sectorsize -> takes capacity write -> gives capacity read -> length cells = capacity -> capacity < fuel ->
  wipe write read blocksize sectorsize fuel seed cells <> None.
Proof.
  intros write read b s C fuel seed cells B SP T G L F. unfold wipe.
  destruct (write_all_ends write b s C B SP T fuel seed cells 0 0 L (Nat.le_0_l _) ltac:(lia)) as (c & w & e & E & L' & P). rewrite E. cbn [bind].
  destruct (read_all_ends read b s C B SP G fuel c seed 0 e (Nat.le_0_l _) ltac:(lia)) as (p & e' & o & E'). rewrite E'. cbn [bind]. intros Q; discriminate Q.
Qed.
Print Assumptions C83_ends.

(** C83, what fails: where a mismatch is reported is not where it is. In a device of one
    block of four words, of which the first has gone wrong after it was written, the offset
    reported is that of the end of the block. Reads see what the device keeps, so the
    reading loop is run here on the damaged device. *)
Theorem C83_offset_refuted : exists read damaged seed, gives 4 read /\ nth 0 damaged 0%Z <> nth 0 (pattern seed 4) 0%Z /\ skipn 1 damaged = skipn 1 (pattern seed 4) /\
  read_all read 4 10 damaged seed 0 0 = Some (4, 1, [4]).
Proof.
  exists (fun p s => Some (Nat.min s (4 - p))), (0%Z :: skipn 1 (pattern 5 4)), 5%Z. split; [|split; [discriminate|split; reflexivity]].
  intros p s n P E. assert (n = Nat.min s (4 - p)) by congruence. lia.
Qed.
Print Assumptions C83_offset_refuted.

(** C83: sizes are rounded up to the least multiple of the unit. *)
Theorem C83_round : forall x unit_, (0 < unit_)%Z -> (exists k, round x unit_ = k * unit_)%Z /\ (x <= round x unit_ < x + unit_)%Z.
Proof.
  intros x u U. unfold round. split; [exists ((x + u - 1) / u)%Z; reflexivity|]. pose proof (Z.div_mod (x + u - 1) u ltac:(lia)) as D. pose proof (Z.mod_pos_bound (x + u - 1) u U) as M. nia.
Qed.
Print Assumptions C83_round.

(** A device of twelve words in sectors of two, which takes at most four at a time, written
    in blocks of eight; and the same when the device forgets a word. *)
Example C83_example :
  let write := fun p s => if 12 <? p + s then NoSpace else Took (Nat.min 4 s) in
  let read := fun p s => Some (Nat.min s (12 - p)) in
  writes 12 2 write /\ reads 12 read /\ takes 12 write /\ gives 12 read /\
  wipe write read 8 2 20 7 (repeat 0%Z 12) = Some (pattern 7 12, 12, 12, 0, []) /\
  read_all read 8 20 (firstn 9 (pattern 7 12) ++ 0%Z :: skipn 10 (pattern 7 12)) 7 0 0 = Some (12, 1, [11]).
Proof.
  cbv zeta. assert (G : gives 12 (fun p s => Some (Nat.min s (12 - p)))) by (intros p s n P E; assert (n = Nat.min s (12 - p)) by congruence; lia).
  split; [|split; [split; [exact G|discriminate]|split; [|split; [exact G|split; reflexivity]]]].
  - intros p s S0 (b & ->). destruct (12 <? p + b * 2); [reflexivity|]. exists (Nat.min 2 b). split; [f_equal; lia|lia].
  - intros p s n S0 E. destruct (Nat.ltb_spec 12 (p + s)); [discriminate E|]. assert (n = Nat.min 4 s) by congruence. lia.
Qed.
