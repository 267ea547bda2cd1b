(** Lemmas on the wiping of a device. *)

From Coq Require Import ZArith List Bool Lia.
From Verif Require Import CInt CUtil WipeModel WipeSpec.
Import ListNotations.

Definition word (seed : Z) (k : nat) : Z := Nat.iter k next seed.
Definition words (seed : Z) (p n : nat) : list Z := map (word seed) (seq p n).

Lemma pattern_words seed n : pattern seed n = words seed 0 n.
Proof. unfold pattern, words. apply map_ext. intros k. unfold word. induction k as [|k IH]; [reflexivity|]. unfold Nat.iter in *. cbn [nat_rect]. rewrite IH. reflexivity. Qed.

Lemma words_length seed p n : length (words seed p n) = n.
Proof. unfold words. rewrite map_length. apply seq_length. Qed.
Lemma words_app seed p n m : words seed p (n + m) = words seed p n ++ words seed (p + n) m.
Proof. unfold words. rewrite seq_app, map_app. reflexivity. Qed.
Lemma words_firstn seed p n m : m <= n -> firstn m (words seed p n) = words seed p m.
Proof. intros L. replace n with (m + (n - m)) by lia. rewrite words_app. rewrite firstn_app, words_length, Nat.sub_diag, app_nil_r. apply firstn_all2. rewrite words_length. lia. Qed.
Lemma words_skipn seed p n m : m <= n -> skipn m (words seed p n) = words seed (p + m) (n - m).
Proof. intros L. replace n with (m + (n - m)) at 1 by lia. rewrite words_app. rewrite skipn_app, words_length, Nat.sub_diag. rewrite skipn_all2 by (rewrite words_length; lia). reflexivity. Qed.

Lemma iter_next k : forall s, Nat.iter k next (next s) = next (Nat.iter k next s).
Proof. induction k as [|k IH]; intros s; [reflexivity|]. cbn [Nat.iter nat_rect]. f_equal. apply IH. Qed.
Lemma fill_words n : forall seed p, fill n (word seed p) = (words seed p n, word seed (p + n)).
Proof.
  induction n as [|n IH]; intros seed p; cbn [fill]; [rewrite Nat.add_0_r; reflexivity|]. change (next (word seed p)) with (word seed (S p)). rewrite IH.
  unfold words. cbn [seq map]. f_equal. f_equal. lia.
Qed.

Lemma put_length cells p data : p + length data <= length cells -> length (put cells p data) = length cells.
Proof. intros L. unfold put. rewrite !app_length, firstn_length, skipn_length. lia. Qed.
Lemma put_firstn cells p data : p + length data <= length cells -> firstn (p + length data) (put cells p data) = firstn p cells ++ data.
Proof.
  intros L. unfold put. rewrite app_assoc. rewrite firstn_app. rewrite app_length, firstn_length, Nat.min_l by lia. rewrite Nat.sub_diag, app_nil_r. apply firstn_all2. rewrite app_length, firstn_length. lia.
Qed.

Lemma skipn_skipn' (l : list Z) : forall p n, skipn n (skipn p l) = skipn (p + n) l.
Proof. induction l as [|x l IH]; intros p n; [rewrite !skipn_nil; reflexivity|]. destruct p as [|p]; cbn [skipn Nat.add]; [reflexivity|apply IH]. Qed.

Lemma firstn_plus (l : list Z) : forall n k, firstn (n + k) l = firstn n l ++ firstn k (skipn n l).
Proof. induction l as [|x l IH]; intros n k; [rewrite !firstn_nil, skipn_nil, firstn_nil; reflexivity|]. destruct n as [|n]; [reflexivity|]. cbn [Nat.add firstn skipn app]. f_equal. apply IH. Qed.

Section Proofs.
Variables (write : nat -> nat -> answer) (read : nat -> nat -> option nat) (blocksize sectorsize capacity : nat).
Hypothesis block_pos : 0 < blocksize.
Hypothesis sector_pos : 0 < sectorsize.

(** * Writing, whatever the device does *)

Lemma write_block_safe : takes capacity write -> forall fuel data size rc cells p e rc' cells' p' e', length cells = capacity -> p <= capacity -> size <= length data ->
  write_block write sectorsize fuel data size rc cells p e = Some (rc', cells', p', e') -> length cells' = capacity /\ p <= p' <= capacity /\ e <= e'.
Proof.
  intros T. induction fuel as [|fuel IH]; intros data size rc cells p e rc' cells' p' e' C P D E; [discriminate E|]. cbn [write_block] in E.
  destruct (Nat.eqb_spec size 0) as [S0|S0]; [injection E as <- <- <- <-; lia|]. destruct (write p size) as [n| | |] eqn:W.
  - destruct (T p size n ltac:(lia) W) as (N & F). assert (FL : length (firstn n data) = n) by (apply firstn_length_le; lia). apply IH in E; [| |lia|rewrite skipn_length; lia].
    + lia.
    + rewrite put_length; [exact C|]. rewrite FL. lia.
  - injection E as <- <- <- <-. lia.
  - destruct (Nat.ltb_spec sectorsize size); [|injection E as <- <- <- <-; lia]. apply IH in E; try assumption. lia.
  - injection E as <- <- <- <-. lia.
Qed.
Lemma write_all_safe : takes capacity write -> forall fuel datum cells p e cells' p' e', length cells = capacity -> p <= capacity ->
  write_all write blocksize sectorsize fuel datum cells p e = Some (cells', p', e') -> length cells' = capacity /\ p' <= capacity /\ e <= e'.
Proof.
  intros T. induction fuel as [|fuel IH]; intros datum cells p e cells' p' e' C P E; [discriminate E|]. cbn [write_all] in E.
  assert (FL : forall n d, length (fst (fill n d)) = n) by (induction n as [|n IHn]; intros d; cbn [fill]; [reflexivity|]; specialize (IHn (next d)); destruct (fill n (next d)); cbn [fst length] in *; lia).
  specialize (FL blocksize datum). destruct (fill blocksize datum) as (data & datum'). cbn [fst] in FL. assert (DL : blocksize <= length data) by lia.
  destruct (write_block _ _ _ _ _ _ _ _ _) as [(((rc & c1) & p1) & e1)|] eqn:W; [|discriminate E]. cbn [bind] in E. destruct (write_block_safe T _ _ _ _ _ _ _ _ _ _ _ C P DL W) as (C1 & P1 & E1).
  destruct rc; [|injection E as <- <- <-; lia]. apply IH in E; [lia|exact C1|lia].
Qed.

(** * Reading *)

Lemma read_block_spec : gives capacity read -> forall fuel cells size rc p e rc' got remains p' e', length cells = capacity -> p <= capacity -> 
  read_block read fuel cells size rc p e = Some (rc', got, remains, p', e') ->
  remains <= size /\ got = firstn (size - remains) (skipn p cells) /\ length got = size - remains /\ p' = p + (size - remains) /\ p' <= capacity /\ e <= e' /\
  (e' = e -> (remains = 0 \/ p' = capacity) /\ (0 < size -> rc' = false -> p' = capacity)).
Proof.
  intros G. induction fuel as [|fuel IH]; intros cells size rc p e rc' got remains p' e' C P E; [discriminate E|]. cbn [read_block] in E.
  destruct (Nat.eqb_spec size 0) as [S0|S0]; [injection E as <- <- <- <- <-; rewrite Nat.sub_diag; repeat split; lia|].
  destruct (read p size) as [[|n]|] eqn:R.
  - injection E as <- <- <- <- <-. rewrite Nat.sub_diag. destruct (G _ _ _ P R) as (_ & _ & Q). repeat split; try lia; intros; specialize (Q eq_refl ltac:(lia)); lia.
  - destruct (G _ _ _ P R) as (N & F & _). destruct (read_block read fuel cells (size - S n) true (p + S n) e) as [((((rc1 & more) & left1) & p1) & e1)|] eqn:B; [|discriminate E]. cbn [bind] in E. remember (firstn (S n) (skipn p cells)) as part eqn:PT. injection E as <- <- <- <- <-. subst part.
    destruct (IH _ _ _ _ _ _ _ _ _ _ C F B) as (L & M & ML & PP & PC & EE & Q).
    split; [lia|]. split.
    { rewrite M. replace (size - left1) with (S n + (size - S n - left1)) by lia. generalize (size - S n - left1). intros k.
      transitivity (firstn (S n) (skipn p cells) ++ firstn k (skipn (S n) (skipn p cells))).
      - f_equal. f_equal. rewrite skipn_skipn'. reflexivity.
      - symmetry. apply firstn_plus. }
    split; [rewrite app_length, ML, firstn_length_le by (rewrite skipn_length; lia); lia|]. split; [lia|]. split; [exact PC|]. split; [exact EE|]. intros E0. specialize (Q E0). destruct Q as (Q1 & Q2). split; [exact Q1|]. intros _ R0.
    destruct (Nat.eq_dec (size - S n) 0) as [Z0|Z0]; [|apply Q2; [lia|exact R0]].
    exfalso. rewrite Z0 in B. destruct fuel; [discriminate B|]. cbn [read_block Nat.eqb] in B. congruence.
  - injection E as <- <- <- <- <-. rewrite Nat.sub_diag. repeat split; lia.
Qed.

(** Comparing. *)
Lemma compare_spec base : forall l seed k errors d e offsets, compare l (word seed k) base errors = (d, e, offsets) ->
  d = word seed (k + length l) /\ errors <= e /\ (e = errors <-> l = words seed k (length l)) /\ (e = errors -> offsets = []).
Proof.
  induction l as [|x l IH]; intros seed k errors d e offsets E; cbn [compare] in E.
  - injection E as <- <- <-. rewrite Nat.add_0_r. repeat split; lia.
  - change (next (word seed k)) with (word seed (S k)) in E. cbn [length]. unfold words. cbn [seq map]. fold (words seed (S k) (length l)). replace (k + S (length l)) with (S k + length l) by lia. destruct (Z.eqb_spec x (word seed k)) as [->|N].
    + destruct (IH _ _ _ _ _ _ E) as (D & M & I & O). split; [exact D|]. split; [exact M|]. split; [|exact O]. rewrite I. split; [intros Q; f_equal; exact Q|intros Q; injection Q as Q; exact Q].
    + destruct (compare l (word seed (S k)) base (S errors)) as ((d1 & e1) & l1) eqn:C. injection E as <- <- <-. destruct (IH _ _ _ _ _ _ C) as (D & M & I & O). split; [exact D|]. split; [lia|]. split; [|lia]. split; [lia|]. intros Q. injection Q as Q _. contradiction.
Qed.

(** If no error is found then what was compared is the pattern, up to the end. *)
Lemma read_all_sound : gives capacity read -> forall fuel cells seed p e p' e' offsets, length cells = capacity -> p <= capacity ->
  read_all read blocksize fuel cells (word seed p) p e = Some (p', e', offsets) ->
  e <= e' /\ (e' = e -> p' = capacity /\ skipn p cells = words seed p (capacity - p) /\ offsets = []).
Proof.
  intros G. induction fuel as [|fuel IH]; intros cells seed p e p' e' offsets C P E; [discriminate E|]. cbn [read_all] in E.
  destruct (read_block read (S blocksize) cells blocksize true p e) as [((((rc & got) & remains) & p1) & e1)|] eqn:B; [|discriminate E]. cbn [bind] in E.
  destruct (read_block_spec G _ _ _ _ _ _ _ _ _ _ _ C P B) as (L & M & ML & PP & PC & EE & Q).
  destruct (Nat.eqb_spec remains blocksize) as [RB|RB].
  { injection E as <- <- <-. split; [exact EE|]. intros E0. destruct (Q E0) as ([Q1|Q1] & _); [lia|]. split; [exact Q1|]. assert (p = capacity) by lia. subst p. rewrite Nat.sub_diag. split; [|reflexivity]. apply skipn_all2. lia. }
  destruct (compare got (word seed p) (p1 - (blocksize - remains)) e1) as ((d & e2) & o1) eqn:K. destruct (compare_spec _ _ _ _ _ _ _ _ K) as (D & M2 & I & O).
  assert (PD : p + length got = p1) by lia. rewrite PD in D.
  assert (SK : skipn p cells = got ++ skipn p1 cells).
  { rewrite M. rewrite <- (firstn_skipn (blocksize - remains) (skipn p cells)) at 1. f_equal. rewrite skipn_skipn'. f_equal. lia. }
  destruct rc.
  - destruct (read_all read blocksize fuel cells d p1 e2) as [((p3 & e3) & o3)|] eqn:R; [|discriminate E]. cbn [bind] in E. injection E as <- <- <-. rewrite D in R.
    destruct (IH _ _ _ _ _ _ _ C PC R) as (M3 & Q3). split; [lia|]. intros E0. assert (E3 : e3 = e2) by lia. assert (E2 : e2 = e1) by lia. destruct (Q3 E3) as (A & S3 & O3). split; [exact A|]. split; [|rewrite (O E2), O3; reflexivity].
    rewrite SK, S3, (proj1 I E2). replace (capacity - p) with (length got + (capacity - p1)) by lia. rewrite words_app, PD. reflexivity.
  - injection E as <- <- <-. split; [lia|]. intros E0. assert (E2 : e2 = e1) by lia. assert (E1 : e1 = e) by lia. destruct (Q E1) as (_ & Q2). specialize (Q2 block_pos eq_refl). split; [exact Q2|]. split; [|exact (O E2)].
    rewrite SK, (proj1 I E2). replace (capacity - p) with (length got) by lia. rewrite Q2. rewrite skipn_all2 by lia. apply app_nil_r.
Qed.

(** * Devices that work *)

Lemma write_block_works k : writes capacity sectorsize write -> forall fuel seed p size m rc cells e,
  capacity = k * sectorsize -> (exists a, p = a * sectorsize) -> (exists b, size = b * sectorsize) -> p <= capacity -> length cells = capacity -> firstn p cells = words seed 0 p -> size <= m -> size < fuel ->
  exists rc' cells' p', write_block write sectorsize fuel (words seed p m) size rc cells p e = Some (rc', cells', p', e) /\
    length cells' = capacity /\ firstn p' cells' = words seed 0 p' /\ p <= p' <= capacity /\ (exists a, p' = a * sectorsize) /\
    (p' = p + size \/ p' = capacity) /\ (rc' = false -> size <> 0 -> p' = capacity) /\ (p = capacity -> size <> 0 -> rc' = false).
Proof.
  intros W. induction fuel as [|fuel IH]; intros seed p size m rc cells e CK (a & PA) (b & SB) P C F M FU; [lia|]. cbn [write_block].
  destruct (Nat.eqb_spec size 0) as [Z0|Z0].
  { do 3 eexists. split; [reflexivity|]. split; [exact C|]. split; [exact F|]. split; [lia|]. split; [exists a; exact PA|]. split; [lia|]. split; [intros _ Q; contradiction|intros _ Q; contradiction]. }
  specialize (W p size ltac:(lia) (ex_intro _ b SB)) as WP. destruct (Nat.ltb_spec capacity (p + size)) as [L|L].
  - rewrite WP. destruct (Nat.ltb_spec sectorsize size) as [S0|S0].
    + assert (SB' : exists b', size - sectorsize = b' * sectorsize) by (exists (b - 1); rewrite SB; nia).
      destruct (IH seed p (size - sectorsize) m false cells e CK (ex_intro _ a PA) SB' P C F ltac:(lia) ltac:(lia)) as (rc' & cells' & p' & E & C' & F' & P' & A' & Q & R & R').
      assert (QC : capacity <= p + (size - sectorsize)).
      { destruct SB' as (b' & SB'). rewrite SB', PA, CK. rewrite <- Nat.mul_add_distr_r. apply Nat.mul_le_mono_r. assert (k < a + b' + 1); [|lia]. apply (Nat.mul_lt_mono_pos_r sectorsize); [exact sector_pos|]. rewrite !Nat.mul_add_distr_r, <- PA, <- SB', <- CK. lia. }
      exists rc', cells', p'. split; [exact E|]. split; [exact C'|]. split; [exact F'|]. split; [exact P'|]. split; [exact A'|]. assert (p' = capacity) by lia. split; [right; assumption|]. split; [intros _ _; assumption|]. intros PE _. apply R'; [exact PE|lia].
    + do 3 eexists. split; [reflexivity|]. split; [exact C|]. split; [exact F|]. split; [lia|]. split; [exists a; exact PA|]. assert (PC : p = capacity).
      { assert (size = sectorsize) by (destruct b as [|b]; [lia|]; nia). assert (k < a + 1); [|assert (k = a \/ k < a) as [->|] by lia; [congruence|]; assert (k * sectorsize <= a * sectorsize) by (apply Nat.mul_le_mono_r; lia); lia].
        apply (Nat.mul_lt_mono_pos_r sectorsize); [exact sector_pos|]. rewrite Nat.mul_add_distr_r, <- PA, <- CK. lia. }
      split; [right; exact PC|]. split; [intros _ _; exact PC|]. intros _ _. reflexivity.
  - destruct WP as (j & WP & J). rewrite WP. set (n := j * sectorsize) in *.
    assert (FW : firstn n (words seed p m) = words seed p n) by (apply words_firstn; lia).
    rewrite FW, words_skipn by lia.
    assert (PL : p + length (words seed p n) <= length cells) by (rewrite words_length; lia).
    destruct (IH seed (p + n) (size - n) (m - n) true (put cells p (words seed p n)) e CK) as (rc' & cells' & p' & E & C' & F' & P' & A' & Q & R & R').
    { exists (a + j). rewrite PA. unfold n. lia. }
    { exists (b - j). rewrite SB. unfold n. rewrite Nat.mul_sub_distr_r. reflexivity. }
    { lia. }
    { rewrite put_length; [exact C|exact PL]. }
    { pose proof (put_firstn cells p (words seed p n) PL) as PF. rewrite words_length in PF. rewrite PF, F. symmetry. exact (words_app seed 0 p n). }
    { lia. }
    { lia. }
    exists rc', cells', p'. split; [exact E|]. split; [exact C'|]. split; [exact F'|]. split; [lia|]. split; [exact A'|]. split; [destruct Q; [left|right]; lia|]. split; [|intros PE _; lia].
    intros R0 _. destruct (Nat.eq_dec (size - n) 0) as [Z1|Z1]; [|apply R; assumption]. exfalso. rewrite Z1 in E. destruct fuel; [lia|]. cbn [write_block Nat.eqb] in E. congruence.
Qed.

Lemma full_block : forall fuel data size rc cells e, writes capacity sectorsize write -> size < fuel -> 0 < size -> (exists b, size = b * sectorsize) ->
  write_block write sectorsize fuel data size rc cells capacity e = Some (false, cells, capacity, e).
Proof.
  induction fuel as [|fuel IH]; intros data size rc cells e W F Z SB; [lia|]. cbn [write_block]. destruct (Nat.eqb_spec size 0); [lia|].
  pose proof (W capacity size Z SB) as WP. destruct (Nat.ltb_spec capacity (capacity + size)); [|lia]. rewrite WP. destruct (Nat.ltb_spec sectorsize size); [|reflexivity]. apply IH; [exact W|lia|lia|]. destruct SB as (b & SB). exists (b - 1). nia.
Qed.

Lemma write_all_works k b : writes capacity sectorsize write -> capacity = k * sectorsize -> blocksize = b * sectorsize ->
  forall fuel seed q p cells, (exists a, p = a * sectorsize) -> p <= capacity -> length cells = capacity -> firstn p cells = words seed 0 p -> (p = q \/ p = capacity) -> capacity + 1 < fuel + p ->
  exists cells', write_all write blocksize sectorsize fuel (word seed q) cells p 0 = Some (cells', capacity, 0) /\ cells' = words seed 0 capacity.
Proof.
  intros W CK BK. induction fuel as [|fuel IH]; intros seed q p cells PA P C F PQ FU; [lia|]. cbn [write_all]. rewrite fill_words.
  assert (BB : exists b', blocksize = b' * sectorsize) by (exists b; exact BK).
  destruct PQ as [<-|PC].
  - destruct (write_block_works k W (S blocksize) seed p blocksize blocksize true cells 0 CK PA BB P C F (le_n _) (le_n _)) as (rc' & cells' & p' & E & C' & F' & P' & A' & Q & R & R').
    rewrite E. cbn [bind]. destruct rc'.
    + destruct (Nat.eq_dec p' capacity) as [PC|PC].
      * destruct (IH seed (p + blocksize) p' cells' A' ltac:(lia) C' F' (or_intror PC)) as (c & E2 & EC); [|exists c; split; assumption].
        destruct (Nat.eq_dec p capacity) as [PE|PE]; [specialize (R' PE ltac:(lia)); discriminate R'|lia].
      * destruct Q as [Q|Q]; [|contradiction]. destruct (IH seed (p + blocksize) p' cells' A' ltac:(lia) C' F' (or_introl Q) ltac:(lia)) as (c & E2 & EC). exists c. split; assumption.
    + specialize (R eq_refl ltac:(lia)). subst p'. exists cells'. split; [reflexivity|]. rewrite <- F'. symmetry. apply firstn_all2. lia.
  - subst p. rewrite (full_block (S blocksize) (words seed q blocksize) blocksize true cells 0 W (le_n _) ltac:(lia) BB). cbn [bind]. exists cells. split; [reflexivity|]. rewrite <- F. symmetry. apply firstn_all2. lia.
Qed.

(** * Both loops end *)

Lemma write_block_ends : takes capacity write -> forall fuel data size rc cells p e, length cells = capacity -> p <= capacity -> size <= length data -> size < fuel ->
  exists rc' cells' p' e', write_block write sectorsize fuel data size rc cells p e = Some (rc', cells', p', e') /\ length cells' = capacity /\ p <= p' <= capacity /\
    (rc' = true -> size <> 0 -> p < p').
Proof.
  intros T. induction fuel as [|fuel IH]; intros data size rc cells p e C P D F; [lia|]. cbn [write_block]. destruct (Nat.eqb_spec size 0) as [S0|S0]; [do 4 eexists; repeat split; lia|].
  destruct (write p size) as [n| | |] eqn:W.
  - destruct (T p size n ltac:(lia) W) as (N & FI). assert (FL : length (firstn n data) = n) by (apply firstn_length_le; lia).
    destruct (IH (skipn n data) (size - n) true (put cells p (firstn n data)) (p + n) e) as (rc' & c' & p' & e' & E & C' & P' & Q); [rewrite put_length; [exact C|lia]|lia|rewrite skipn_length; lia|lia|].
    exists rc', c', p', e'. split; [exact E|]. split; [exact C'|]. split; lia.
  - do 4 eexists. split; [reflexivity|]. split; [exact C|]. split; [lia|]. intros Q; discriminate Q.
  - destruct (Nat.ltb_spec sectorsize size).
    + destruct (IH data (size - sectorsize) false cells p e C P ltac:(lia) ltac:(lia)) as (rc' & c' & p' & e' & E & C' & P' & Q). exists rc', c', p', e'. split; [exact E|]. split; [exact C'|]. split; [exact P'|]. intros R _. apply Q; [exact R|lia].
    + do 4 eexists. split; [reflexivity|]. split; [exact C|]. split; [lia|]. intros Q; discriminate Q.
  - do 4 eexists. split; [reflexivity|]. split; [exact C|]. split; [lia|]. intros Q; discriminate Q.
Qed.
Lemma fill_length : forall n d, length (fst (fill n d)) = n.
Proof. induction n as [|n IHn]; intros d; cbn [fill]; [reflexivity|]; specialize (IHn (next d)); destruct (fill n (next d)); cbn [fst length] in *; lia. Qed.
Lemma write_all_ends : takes capacity write -> forall fuel datum cells p e, length cells = capacity -> p <= capacity -> capacity < fuel + p ->
  exists cells' p' e', write_all write blocksize sectorsize fuel datum cells p e = Some (cells', p', e') /\ length cells' = capacity /\ p' <= capacity.
Proof.
  intros T. induction fuel as [|fuel IH]; intros datum cells p e C P F; [lia|]. cbn [write_all]. pose proof (fill_length blocksize datum) as FL. destruct (fill blocksize datum) as (data & d). cbn [fst] in FL.
  destruct (write_block_ends T (S blocksize) data blocksize true cells p e C P ltac:(lia) (le_n _)) as (rc' & c' & p' & e' & E & C' & P' & Q). rewrite E. cbn [bind]. destruct rc'.
  - specialize (Q eq_refl ltac:(lia)). apply IH; [exact C'|lia|lia].
  - do 3 eexists. split; [reflexivity|]. split; [exact C'|lia].
Qed.

Lemma read_block_ends : gives capacity read -> forall fuel cells size rc p e, p <= capacity -> size < fuel ->
  exists rc' got remains p' e', read_block read fuel cells size rc p e = Some (rc', got, remains, p', e') /\ p <= p' <= capacity /\ p' = p + (size - remains) /\ remains <= size.
Proof.
  intros G. induction fuel as [|fuel IH]; intros cells size rc p e P F; [lia|]. cbn [read_block]. destruct (Nat.eqb_spec size 0) as [S0|S0]; [do 5 eexists; split; [reflexivity|lia]|].
  destruct (read p size) as [[|n]|] eqn:R.
  - do 5 eexists; split; [reflexivity|lia].
  - destruct (G _ _ _ P R) as (N & FI & _). destruct (IH cells (size - S n) true (p + S n) e FI ltac:(lia)) as (rc' & got & rem & p' & e' & E & P' & Q & L). rewrite E. cbn [bind]. do 5 eexists; split; [reflexivity|lia].
  - do 5 eexists; split; [reflexivity|lia].
Qed.
Lemma read_all_ends : gives capacity read -> forall fuel cells datum p e, p <= capacity -> capacity < fuel + p ->
  exists p' e' offsets, read_all read blocksize fuel cells datum p e = Some (p', e', offsets).
Proof.
  intros G. induction fuel as [|fuel IH]; intros cells datum p e P F; [lia|]. cbn [read_all].
  destruct (read_block_ends G (S blocksize) cells blocksize true p e P (le_n _)) as (rc' & got & rem & p' & e' & E & P' & Q & L). rewrite E. cbn [bind]. destruct (Nat.eqb_spec rem blocksize); [do 3 eexists; reflexivity|].
  destruct (compare got datum (p' - (blocksize - rem)) e') as ((d & e2) & o). destruct rc'; [|do 3 eexists; reflexivity].
  destruct (IH cells d p' e2) as (p3 & e3 & o3 & E3); [lia|lia|]. rewrite E3. cbn [bind]. do 3 eexists; reflexivity.
Qed.

(** A device from which all can be read gives no errors of its own. *)
Lemma read_block_works : reads capacity read -> forall fuel cells size rc p e rc' got remains p' e', p <= capacity ->
  read_block read fuel cells size rc p e = Some (rc', got, remains, p', e') -> e' = e.
Proof.
  intros (G & NN). induction fuel as [|fuel IH]; intros cells size rc p e rc' got remains p' e' P E; [discriminate E|]. cbn [read_block] in E.
  destruct (size =? 0); [congruence|]. destruct (read p size) as [[|n]|] eqn:R; [congruence| |exfalso; exact (NN p size P R)].
  destruct (G _ _ _ P R) as (N & F & _). destruct (read_block read fuel cells (size - S n) true (p + S n) e) as [((((rc1 & more) & left1) & p1) & e1)|] eqn:B; [|discriminate E]. cbn [bind] in E. apply (IH _ _ _ _ _ _ _ _ _ _ F) in B. congruence.
Qed.
Lemma read_all_works : reads capacity read -> forall fuel seed p e, p <= capacity -> capacity < fuel + p ->
  read_all read blocksize fuel (words seed 0 capacity) (word seed p) p e = Some (capacity, e, []).
Proof.
  intros RD. assert (G := proj1 RD). induction fuel as [|fuel IH]; intros seed p e P F; [lia|]. cbn [read_all]. set (cells := words seed 0 capacity) in *. assert (C : length cells = capacity) by apply words_length.
  destruct (read_block_ends G (S blocksize) cells blocksize true p e P (le_n _)) as (rc' & got & rem & p' & e' & E & _). rewrite E. cbn [bind].
  destruct (read_block_spec G _ _ _ _ _ _ _ _ _ _ _ C P E) as (L & M & ML & PP & PC & EE & Q). assert (E0 := read_block_works RD _ _ _ _ _ _ _ _ _ _ _ P E). destruct (Q E0) as (Q1 & Q2). subst e'.
  assert (GW : got = words seed p (length got)). { rewrite M at 1. unfold cells. rewrite words_skipn by lia. cbn [Nat.add]. rewrite words_firstn by lia. f_equal. lia. }
  destruct (Nat.eqb_spec rem blocksize).
  { destruct Q1 as [Q1|Q1]; [lia|]. rewrite Q1. reflexivity. }
  destruct (compare got (word seed p) (p' - (blocksize - rem)) e) as ((d & e2) & o) eqn:K. destruct (compare_spec _ _ _ _ _ _ _ _ K) as (D & M2 & I & O). assert (E2 : e2 = e) by (apply I; exact GW). subst e2. rewrite (O eq_refl).
  destruct rc'.
  - rewrite D. replace (p + length got) with p' by lia. unfold cells. rewrite IH by lia. reflexivity.
  - rewrite (Q2 block_pos eq_refl). reflexivity.
Qed.
End Proofs.

(** * Failures count *)

Section Failures.
Variables (write write' : nat -> nat -> answer) (read read' : nat -> nat -> option nat) (blocksize sectorsize : nat).
Hypothesis same_write : forall p s, write p s <> Failed -> write' p s = write p s.
Hypothesis same_read : forall p s, read p s <> None -> read' p s = read p s.

Lemma write_block_mono : forall fuel data size rc cells p e rc' cells' p' e', write_block write sectorsize fuel data size rc cells p e = Some (rc', cells', p', e') ->
  e <= e' /\ (e' = e -> write_block write' sectorsize fuel data size rc cells p e = Some (rc', cells', p', e')).
Proof.
  induction fuel as [|fuel IH]; intros data size rc cells p e rc' cells' p' e' E; [discriminate E|]. cbn [write_block] in *. destruct (size =? 0).
  { injection E as <- <- <- <-. split; [lia|reflexivity]. }
  pose proof (same_write p size) as S. destruct (write p size) eqn:W; try (rewrite S by discriminate).
  - apply IH. exact E.
  - injection E as <- <- <- <-. split; [lia|reflexivity].
  - destruct (sectorsize <? size); [apply IH; exact E|]. injection E as <- <- <- <-. split; [lia|reflexivity].
  - injection E as <- <- <- <-. split; lia.
Qed.
Lemma write_all_mono : forall fuel datum cells p e cells' p' e', write_all write blocksize sectorsize fuel datum cells p e = Some (cells', p', e') ->
  e <= e' /\ (e' = e -> write_all write' blocksize sectorsize fuel datum cells p e = Some (cells', p', e')).
Proof.
  induction fuel as [|fuel IH]; intros datum cells p e cells' p' e' E; [discriminate E|]. cbn [write_all] in *. destruct (fill blocksize datum) as (data & d).
  destruct (write_block write _ _ _ _ _ _ _ _) as [(((rc & c1) & p1) & e1)|] eqn:W; [|discriminate E]. cbn [bind] in E. destruct (write_block_mono _ _ _ _ _ _ _ _ _ _ _ W) as (M & S). destruct rc.
  - destruct (IH _ _ _ _ _ _ _ E) as (M2 & S2). split; [lia|]. intros Q. rewrite S by lia. cbn [bind]. apply S2. lia.
  - injection E as <- <- <-. split; [lia|]. intros Q. rewrite S by lia. reflexivity.
Qed.
Lemma read_block_mono : forall fuel cells size rc p e rc' got remains p' e', read_block read fuel cells size rc p e = Some (rc', got, remains, p', e') ->
  e <= e' /\ (e' = e -> read_block read' fuel cells size rc p e = Some (rc', got, remains, p', e')).
Proof.
  induction fuel as [|fuel IH]; intros cells size rc p e rc' got remains p' e' E; [discriminate E|]. cbn [read_block] in *. destruct (size =? 0).
  { injection E as <- <- <- <- <-. split; [lia|reflexivity]. }
  pose proof (same_read p size) as SR. destruct (read p size) as [[|n]|] eqn:R; try (rewrite SR by discriminate).
  - injection E as <- <- <- <- <-. split; [lia|reflexivity].
  - remember (firstn (S n) (skipn p cells)) as part eqn:PT. destruct (read_block read fuel cells (size - S n) true (p + S n) e) as [((((rc1 & more) & left1) & p1) & e1)|] eqn:B; [|discriminate E]. cbn [bind] in E.
    destruct (IH _ _ _ _ _ _ _ _ _ _ B) as (M & Q). assert (e1 = e') by congruence. subst e1. split; [exact M|]. intros EE. rewrite Q by exact EE. exact E.
  - injection E as <- <- <- <- <-. split; lia.
Qed.
Lemma compare_mono base : forall l datum e d e' o, compare l datum base e = (d, e', o) -> e <= e'.
Proof.
  induction l as [|x l IH]; intros datum e d e' o E; cbn [compare] in E; [injection E as <- <- <-; lia|]. destruct (x =? datum)%Z; [exact (IH _ _ _ _ _ E)|].
  destruct (compare l (next datum) base (S e)) as ((d1 & e1) & l1) eqn:C. apply IH in C. injection E as <- <- <-. lia.
Qed.
Lemma read_all_mono : forall fuel cells datum p e p' e' o, read_all read blocksize fuel cells datum p e = Some (p', e', o) ->
  e <= e' /\ (e' = e -> read_all read' blocksize fuel cells datum p e = Some (p', e', o)).
Proof.
  induction fuel as [|fuel IH]; intros cells datum p e p' e' o E; [discriminate E|]. cbn [read_all] in *.
  destruct (read_block read _ _ _ _ _ _) as [((((rc & got) & rem) & p1) & e1)|] eqn:B; [|discriminate E]. cbn [bind] in E. destruct (read_block_mono _ _ _ _ _ _ _ _ _ _ _ B) as (M & S).
  destruct (rem =? blocksize) eqn:RB.
  { injection E as <- <- <-. split; [lia|]. intros Q. rewrite S by lia. cbn [bind]. rewrite RB. reflexivity. }
  destruct (compare got datum (p1 - (blocksize - rem)) e1) as ((d & e2) & o1) eqn:K. pose proof (compare_mono _ _ _ _ _ _ _ K) as MK. destruct rc.
  - destruct (read_all read blocksize fuel cells d p1 e2) as [((p3 & e3) & o3)|] eqn:R; [|discriminate E]. cbn [bind] in E. destruct (IH _ _ _ _ _ _ _ R) as (M2 & S2). assert (e3 = e') by congruence. subst e3. split; [lia|].
    intros Q. rewrite S by lia. cbn [bind]. rewrite RB, K, S2 by lia. exact E.
  - injection E as <- <- <-. split; [lia|]. intros Q. rewrite S by lia. cbn [bind]. rewrite RB, K. reflexivity.
Qed.
End Failures.
