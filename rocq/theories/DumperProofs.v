From Coq Require Import ZArith List Bool Lia Arith.
From Verif Require Import CInt CUtil DumpModel DumpSpec DumpProofs DumpProps DumperModel DumperSpec.
Import ListNotations.
Local Open Scope Z_scope.

Lemma skipn_add {A} (l : list A) n m : skipn m (skipn n l) = skipn (n + m) l.
Proof. revert l. induction n as [|n IH]; intros l; [reflexivity|]. destruct l as [|x l]; [destruct m; reflexivity|]. cbn. apply IH. Qed.

Section Sh.
Variable sh : Z -> list Z.
Notation f := (general sh).

Lemma flat_map_ext_in' {A B} (g h : A -> list B) l : (forall x, In x l -> g x = h x) -> flat_map g l = flat_map h l.
Proof. induction l as [|x l IH]; intros H; [reflexivity|]. cbn. rewrite H by (left; reflexivity). rewrite IH; [reflexivity|]. intros y Hy. apply H. right. exact Hy. Qed.

Lemma range_in n : forall a x, In x (range a n) -> a <= x < a + Z.of_nat n.
Proof. induction n as [|n IH]; intros a x H; [destruct H|]. cbn [range] in H. destruct H as [H|H]; [subst; lia|]. apply IH in H. lia. Qed.

Lemma at_chunk data off a : 0 <= off -> off <= a < off + 16 ->
  at_address (firstn 16 (skipn (Z.to_nat off) data)) off a = at_address data 0 a.
Proof.
  intros Ho Ha. unfold at_address. destruct (Z.ltb_spec a off); [lia|]. destruct (Z.ltb_spec a 0); [lia|].
  replace (Z.to_nat (a - 0)) with (Z.to_nat off + Z.to_nat (a - off))%nat by lia.
  assert (L : (Z.to_nat (a - off) < 16)%nat) by lia.
  generalize dependent (Z.to_nat (a - off)). generalize (Z.to_nat off). clear. intros n k L.
  revert data. induction n as [|n IH]; intros data.
  - cbn [skipn plus]. revert k L data. generalize 16%nat. intros m. induction m as [|m IHm]; intros k L data; [lia|].
    destruct data as [|d data]; [destruct k; reflexivity|]. destruct k as [|k]; [reflexivity|]. cbn. apply IHm. lia.
  - destruct data as [|d data]; [destruct k; reflexivity|]. cbn [skipn plus nth_error]. apply IH.
Qed.

Lemma cells_chunk data off a : 0 <= off -> off <= a < off + 16 ->
  hex_cell f (firstn 16 (skipn (Z.to_nat off) data)) off a = hex_cell f data 0 a /\
  char_cell f (firstn 16 (skipn (Z.to_nat off) data)) off a = char_cell f data 0 a.
Proof. intros Ho Ha. unfold hex_cell, char_cell. rewrite at_chunk by assumption. split; reflexivity. Qed.

Lemma words_chunk data off : 0 <= off -> forall n a, off <= a -> a + 4 * Z.of_nat n <= off + 16 ->
  words f (firstn 16 (skipn (Z.to_nat off) data)) off a n = words f data 0 a n.
Proof.
  intros Ho. induction n as [|n IH]; intros a Ha Hn; [reflexivity|].
  cbn [words]. rewrite IH by (cbn [bpw general]; lia). f_equal. apply flat_map_ext_in'. intros x Hx. apply range_in in Hx.
  cbn [bpw general] in Hx. apply cells_chunk; lia.
Qed.

Lemma row_chunk data off : 0 <= off -> row f (firstn 16 (skipn (Z.to_nat off) data)) off off = row f data 0 off.
Proof.
  intros Ho. unfold row. rewrite words_chunk by (cbn [wpl general]; lia). do 5 f_equal.
  f_equal. apply flat_map_ext_in'. intros x Hx. apply range_in in Hx. cbn [bpw wpl general] in Hx. apply cells_chunk; lia.
Qed.

Lemma octets_sub data k n : octets data -> octets (firstn n (skipn k data)).
Proof.
  unfold octets. intros H. rewrite Forall_forall in *. intros x Hx. apply H.
  rewrite <- (firstn_skipn k data). apply in_or_app. right. rewrite <- (firstn_skipn n (skipn k data)). apply in_or_app. left. exact Hx.
Qed.

Lemma chunk_row data off : octets data -> 0 <= off -> off mod 16 = 0 -> (Z.to_nat off < length data)%nat ->
  Z.of_nat (length data) + 16 <= 2 ^ 64 ->
  dump f (firstn 16 (skipn (Z.to_nat off) data)) off = Some (row f data 0 off).
Proof.
  intros Hd Ho Hm Hl Hs. set (c := firstn 16 (skipn (Z.to_nat off) data)).
  assert (Lc : (1 <= length c <= 16)%nat /\ (length c <= length data - Z.to_nat off)%nat) by (unfold c; rewrite firstn_length, skipn_length; lia).
  destruct (C65_aligned f c off 4) as (a & n & Am & A1 & A2 & A3 & E); try (cbn [bpw wpl general]; lia).
  { apply octets_sub. exact Hd. }
  cbn [bpw wpl general] in *. change (4 * 4) with 16 in *.
  assert (a = off).
  { rewrite (Z.div_mod a 16), (Z.div_mod off 16) by lia. rewrite (Z.div_mod a 16), (Z.div_mod off 16) in A1 by lia. lia. }
  subst a. assert (n = 1%nat).
  { destruct n as [|n]; [lia|]. assert (A4 := A3 ltac:(discriminate)). lia. }
  subst n. rewrite E. cbn [table]. rewrite app_nil_r. unfold c. rewrite row_chunk by assumption. reflexivity.
Qed.

Lemma stream_spec data : octets data -> Z.of_nat (length data) + 16 <= 2 ^ 64 ->
  forall n fuel off, 0 <= off -> off mod 16 = 0 ->
  Z.of_nat (length data) <= off + 16 * Z.of_nat n -> (n <> O -> off + 16 * (Z.of_nat n - 1) < Z.of_nat (length data)) ->
  (length data - Z.to_nat off < fuel)%nat ->
  dump_stream fuel sh (skipn (Z.to_nat off) data) off = Some (table f data 0 off n, skipn (Z.to_nat off) data).
Proof.
  intros Hd Hs. induction n as [|n IH]; intros fuel off Ho Hm Hl Hn Hf.
  - destruct fuel as [|fuel]; [lia|]. cbn [dump_stream]. rewrite skipn_all2 by lia. reflexivity.
  - destruct fuel as [|fuel]; [lia|]. cbn [dump_stream]. assert (Hn' := Hn ltac:(discriminate)).
    assert (Lt : (Z.to_nat off < length data)%nat) by lia.
    set (b := firstn 16 (skipn (Z.to_nat off) data)).
    assert (Lb : length b = Nat.min 16 (length data - Z.to_nat off)) by (unfold b; rewrite firstn_length, skipn_length; reflexivity).
    destruct (Z.ltb_spec 0 (Z.of_nat (length b))); [|lia].
    unfold b at 1. rewrite chunk_row by assumption. cbn [bind].
    assert (D : (16 <= length data - Z.to_nat off)%nat \/ (length data - Z.to_nat off < 16)%nat) by lia.
    destruct D as [D|D].
    + rewrite u64_id by lia. replace (off + Z.of_nat (length b)) with (off + 16) by lia.
      replace (skipn 16 (skipn (Z.to_nat off) data)) with (skipn (Z.to_nat (off + 16)) data).
      2:{ rewrite Z2Nat.inj_add by lia. change (Z.to_nat 16) with 16%nat. symmetry. apply skipn_add. }
      rewrite (IH fuel (off + 16)); [| lia | rewrite <- Z.add_mod_idemp_l, Hm by lia; reflexivity | lia | lia | lia].
      cbn [bind fst snd table bpw wpl general]. change (4 * 4) with 16. f_equal. f_equal.
      unfold b. replace (Z.to_nat (off + 16)) with (Z.to_nat off + 16)%nat by lia. rewrite <- skipn_add. apply firstn_skipn.
    + assert (n = O) by lia. subst n. rewrite (skipn_all2 (skipn _ _)) by (rewrite skipn_length; lia).
      destruct fuel as [|fuel]; [lia|].
      cbn [dump_stream firstn length Z.of_nat Z.ltb Z.compare bind fst snd table bpw wpl general]. f_equal. f_equal.
      unfold b. rewrite app_nil_r, firstn_all2 by (rewrite skipn_length; lia). reflexivity.
Qed.

Definition count (data : list Z) : nat := Z.to_nat ((Z.of_nat (length data) + 15) / 16).
Lemma count_spec data : Z.of_nat (length data) <= 16 * Z.of_nat (count data) /\
  (count data <> O -> 16 * (Z.of_nat (count data) - 1) < Z.of_nat (length data)).
Proof.
  unfold count. pose proof (Z.div_mod (Z.of_nat (length data) + 15) 16 ltac:(lia)).
  pose proof (Z.mod_pos_bound (Z.of_nat (length data) + 15) 16 ltac:(lia)).
  set (q := (Z.of_nat (length data) + 15) / 16) in *. lia.
Qed.

Lemma stream_whole data : octets data -> Z.of_nat (length data) + 16 <= 2 ^ 64 ->
  dump_stream (S (length data)) sh data 0 = Some (table f data 0 0 (count data), data) /\
  dump f data 0 = Some (table f data 0 0 (count data)).
Proof.
  intros Hd Hs. pose proof (count_spec data) as (C1 & C2). split.
  - apply (stream_spec data Hd Hs (count data) (S (length data)) 0); try lia; try reflexivity; try (change (Z.to_nat 0) with O; lia).
  - destruct (C65_aligned f data 0 4) as (a & n & Am & A1 & A2 & A3 & E); try assumption; try (cbn [bpw wpl general]; lia).
    cbn [bpw wpl general] in *. change (4 * 4) with 16 in *.
    assert (a = 0).
    { pose proof (Z.div_mod a 16 ltac:(lia)). lia. }
    subst a. rewrite E. do 2 f_equal.
    assert (D : (n = O \/ n <> O) /\ (count data = O \/ count data <> O)) by lia.
    destruct D as [[D|D] [D'|D']]; try (specialize (A3 D)); try (specialize (C2 D')); lia.
Qed.

(** Reading. *)
Lemma cell_two data a : exists h l, hex_cell f data 0 a = [h; l] /\
  (octets data -> the (at_address data 0 a) = match value h, value l with Some h, Some l => [16 * h + l] | _, _ => [] end).
Proof.
  unfold hex_cell. destruct (at_address data 0 a) as [x|] eqn:E.
  - eexists _, _. split; [reflexivity|]. intros Hd.
    assert (Hx : is_u8 x).
    { unfold at_address in E. destruct (a <? 0); [discriminate|]. apply nth_error_In in E. unfold octets in Hd. rewrite Forall_forall in Hd. apply Hd. exact E. }
    assert (V : forall d, 0 <= d < 16 -> value (nth (Z.to_nat d) (numerals (upper f)) 0) = Some d).
    { intros d Hdd. assert (X : exists n, d = Z.of_nat n /\ (n < 16)%nat) by (exists (Z.to_nat d); lia).
      destruct X as (n & -> & Hn). do 16 (destruct n as [|n]; [reflexivity|]). lia. }
    red in Hx. assert (M := Z.mod_pos_bound x 16 ltac:(lia)).
    rewrite !V; [|exact M|split; [apply Z.div_pos; lia|apply Z.div_lt_upper_bound; lia]].
    cbn [the]. f_equal. apply Z.div_mod. lia.
  - eexists _, _. split; [reflexivity|]. intros _. reflexivity.
Qed.
Lemma char_one data a : exists c, char_cell f data 0 a = [c].
Proof. unfold char_cell. destruct (at_address data 0 a); eexists; reflexivity. Qed.

Lemma row_reads data a : octets data -> length (sh a) = 16%nat ->
  length (row f data 0 a) = columns /\
  read_line (row f data 0 a) = flat_map (fun x => the (at_address data 0 x)) (range a 16) /\
  address_of (row f data 0 a) = sh a /\
  characters_of (row f data 0 a) = flat_map (char_cell f data 0) (range a 16).
Proof.
  intros Hd Hl. unfold row. cbn [indent show addrsep charsep lineend bpw wpl wordsep general].
  change (Z.to_nat 4) with 4%nat. change (Z.to_nat (4 * 4)) with 16%nat. cbn [words bpw wordsep general range].
  change (Z.to_nat 4) with 4%nat. cbn [range flat_map repeat].
  destruct (sh a) as [|s0 [|s1 [|s2 [|s3 [|s4 [|s5 [|s6 [|s7 [|s8 [|s9 [|s10 [|s11 [|s12 [|s13 [|s14 [|s15 [|s16 s]]]]]]]]]]]]]]]]];
    cbn [length] in Hl; try discriminate Hl. clear Hl.
  replace (a + 4 + 1) with (a + 1 + 1 + 1 + 1 + 1) by lia.
  replace (a + 4 + 4) with (a + 1 + 1 + 1 + 1 + 1 + 1 + 1 + 1) by lia.
  replace (a + 4) with (a + 1 + 1 + 1 + 1) by lia.
  replace (a + 1 + 1 + 1 + 1 + 1 + 1 + 1 + 1 + 4) with (a + 1 + 1 + 1 + 1 + 1 + 1 + 1 + 1 + 1 + 1 + 1 + 1) by lia.
  repeat match goal with |- context [hex_cell (general sh) data 0 ?x] =>
    let h := fresh "h" in let l := fresh "l" in let E := fresh "E" in let V := fresh "V" in
    destruct (cell_two data x) as (h & l & E & V); specialize (V Hd); rewrite E, V; clear E V end.
  repeat match goal with |- context [char_cell (general sh) data 0 ?x] =>
    let h := fresh "c" in let E := fresh "E" in
    destruct (char_one data x) as (h & E); rewrite E; clear E end.
  repeat split.
Qed.

Lemma line_next (r t : list Z) k : length r = columns -> line_of (r ++ t) (S k) = line_of t k /\ line_of (r ++ t) 0 = r.
Proof.
  intros L. unfold line_of. split.
  - replace (S k * columns)%nat with (columns + k * columns)%nat by lia. rewrite <- skipn_add.
    rewrite (skipn_app columns r t). rewrite (skipn_all2 r) by lia. rewrite L, Nat.sub_diag. reflexivity.
  - change (0 * columns)%nat with O. cbn [skipn]. rewrite <- L. rewrite firstn_app, Nat.sub_diag, firstn_all. cbn [firstn]. apply app_nil_r.
Qed.

Lemma table_lines data (Hd : octets data) (Hl : forall a, length (sh a) = 16%nat) : forall n off,
  length (table f data 0 off n) = (n * columns)%nat /\
  (forall k, (k < n)%nat -> line_of (table f data 0 off n) k = row f data 0 (off + 16 * Z.of_nat k)).
Proof.
  induction n as [|n IH]; intros off; [split; [reflexivity|intros k Hk; lia]|].
  cbn [table bpw wpl general]. change (4 * 4) with 16.
  destruct (row_reads data off Hd (Hl off)) as (R & _). destruct (IH (off + 16)) as (I1 & I2). split.
  - rewrite app_length, R, I1. reflexivity.
  - intros [|k] Hk.
    + rewrite (proj2 (line_next _ _ 0 R)). f_equal. lia.
    + rewrite (proj1 (line_next _ _ k R)). rewrite I2 by lia. f_equal. lia.
Qed.

Lemma range_app n m : forall a, range a (n + m) = range a n ++ range (a + Z.of_nat n) m.
Proof.
  induction n as [|n IH]; intros a; [cbn; f_equal; lia|]. cbn [range plus app]. rewrite IH. do 2 f_equal. f_equal. lia.
Qed.

Lemma reads_rows data (Hd : octets data) (Hl : forall a, length (sh a) = 16%nat) : forall n s,
  flat_map (fun k => read_line (row f data 0 (16 * Z.of_nat k))) (seq s n) =
  flat_map (fun x => the (at_address data 0 x)) (range (16 * Z.of_nat s) (16 * n)).
Proof.
  induction n as [|n IH]; intros s; [reflexivity|].
  cbn [seq flat_map]. rewrite IH. destruct (row_reads data (16 * Z.of_nat s) Hd (Hl _)) as (_ & R & _). rewrite R.
  replace (16 * S n)%nat with (16 + 16 * n)%nat by lia. rewrite range_app, flat_map_app.
  do 2 f_equal. f_equal. lia.
Qed.

Lemma read_table data (Hd : octets data) (Hl : forall a, length (sh a) = 16%nat) :
  read_text (table f data 0 0 (count data)) = data.
Proof.
  unfold read_text. destruct (table_lines data Hd Hl (count data) 0) as (L & E). rewrite L.
  rewrite Nat.div_mul by discriminate.
  rewrite (flat_map_ext_in' _ (fun k => read_line (row f data 0 (16 * Z.of_nat k)))).
  - rewrite reads_rows by assumption. change (16 * Z.of_nat 0) with 0. rewrite once; [reflexivity|].
    pose proof (count_spec data). lia.
  - intros k Hk. apply in_seq in Hk. rewrite E by lia. reflexivity.
Qed.

Lemma chars_from data : forall n a, 0 <= a ->
  flat_map (char_cell f data 0) (range a n) =
  map visible (firstn n (skipn (Z.to_nat a) data)) ++ repeat 32 (n - length (firstn n (skipn (Z.to_nat a) data))).
Proof.
  induction n as [|n IH]; intros a Ha; [reflexivity|].
  cbn [range flat_map]. rewrite IH by lia.
  assert (D : 0 <= a < 0 + Z.of_nat (length data) \/ ~ (0 <= a < 0 + Z.of_nat (length data))) by lia.
  destruct D as [D|D].
  - destruct (from_inside data 0 a D) as (x & E & _ & F). unfold char_cell at 1. rewrite E.
    unfold from in F. rewrite !Z.sub_0_r in F. rewrite F. cbn [firstn map app length]. cbn [dot general].
    f_equal. unfold visible. destruct (Z.ltb_spec x 127), (Z.leb_spec x 126); try lia; reflexivity.
  - destruct (from_outside data 0 a D) as (E & _). unfold char_cell at 1. rewrite E. cbn [charskip general].
    rewrite !skipn_all2 by lia. rewrite !firstn_nil. cbn [map app length]. rewrite !Nat.sub_0_r. reflexivity.
Qed.

(** The arguments. *)
Fixpoint left_over (sources : list source) (stdin : list Z) : list Z :=
  match sources with
  | [] => stdin
  | StandardInput :: sources => left_over sources []
  | Contents data :: sources => left_over sources stdin
  end.

Lemma operands_app rest : forall sources stdin,
  Forall (fun data => octets data /\ Z.of_nat (length data) + 16 <= 2 ^ 64) (inputs sources stdin) ->
  operands sh (map operand_of sources ++ rest) stdin false =
  let* q := operands sh rest (left_over sources stdin) false in
  let '(o, c, s) := q in
  Some (flat_map (fun data => table f data 0 0 (count data)) (inputs sources stdin) ++ o, concat (inputs sources stdin) ++ c, s).
Proof.
  induction sources as [|s sources IH]; intros stdin H.
  - cbn [map app inputs left_over flat_map concat]. destruct (operands sh rest stdin false) as [[[o c] s]|]; reflexivity.
  - destruct s as [|data]; cbn [inputs] in H; inversion H as [|d l (Hd & Hs) H' Ed]; subst;
      cbn [map app operand_of operands inputs left_over flat_map concat];
      rewrite (proj1 (stream_whole _ Hd Hs)); cbn [bind fst snd]; rewrite IH by exact H';
      destruct (operands sh rest _ false) as [[[o c] s]|]; try reflexivity; cbn [bind]; rewrite !app_assoc; reflexivity.
Qed.
End Sh.
