From Coq Require Import ZArith List Bool Lia.
From Verif Require Import CUtil CInt NumberModel NumberSpec NumberProofs ChecksumProofs DecModel DecSpec.
Import ListNotations.
Local Open Scope Z_scope.

Lemma digit_letter d : 0 <= d < 16 -> digit d = letter d.
Proof. intros H. pose proof (all_below 16 (fun d => digit d =? letter d) eq_refl d H) as E. cbv beta in E. apply Z.eqb_eq in E. exact E. Qed.
Lemma write_zero f base : write f base 0 = [].
Proof. destruct f; reflexivity. Qed.
Lemma print_write f base : 2 <= base <= 16 -> forall n after, 0 <= n < 2 ^ Z.of_nat f -> (0 < f)%nat ->
  print f base n after = (if n =? 0 then [48] else write f base n) ++ after.
Proof.
  intros B. induction f as [|f IH]; intros n after H F; [lia|]. cbn [print write]. rewrite digit_letter by (pose proof (Z.mod_pos_bound n base); lia).
  destruct (Z.eqb_spec n 0) as [-> |N].
  - rewrite Z.div_0_l, Z.mod_0_l by lia. reflexivity.
  - destruct (Z.eqb_spec (n / base) 0) as [E|E].
    + rewrite E, write_zero. reflexivity.
    + assert (H2 : 0 <= n / base < 2 ^ Z.of_nat f).
      { rewrite Nat2Z.inj_succ, Z.pow_succ_r in H by lia. split; [apply Z.div_pos; lia|]. apply Z.div_lt_upper_bound; [lia|]. nia. }
      destruct f as [|f]; [cbn in H2; lia|]. rewrite IH by (assumption || lia). destruct (Z.eqb_spec (n / base) 0); [contradiction|]. rewrite <- app_assoc. reflexivity.
Qed.
Lemma number_write base n : 2 <= base <= 16 -> 0 <= n < 2 ^ 64 -> number base n = if n =? 0 then [48] else write 64 base n.
Proof. intros B H. unfold number. rewrite print_write by (exact H || exact B || lia). apply app_nil_r. Qed.
Lemma number_dec n : 0 <= n < 2 ^ 64 -> number 10 n = dec n.
Proof. intros H. apply number_write; [lia|exact H]. Qed.
Lemma number_hex n : 0 <= n < 2 ^ 64 -> 48 :: 120 :: number 16 n = hex n.
Proof. intros H. rewrite number_write by (exact H || lia). reflexivity. Qed.
Lemma number_oct n : 0 <= n < 2 ^ 64 -> 48 :: number 8 n = if n =? 0 then [48; 48] else oct n.
Proof. intros H. rewrite number_write by (exact H || lia). unfold oct. destruct (n =? 0); reflexivity. Qed.

(** Octets. *)
Lemma land_255 v : Z.land v 255 = v mod 256.
Proof. change 255 with (Z.ones 8). rewrite Z.land_ones by lia. reflexivity. Qed.
Lemma land_65280 v : Z.land v 65280 = (v / 256) mod 256 * 256.
Proof.
  change 65280 with (Z.shiftl 255 8). replace (v / 256) with (Z.shiftr v 8) by (apply Z.shiftr_div_pow2; lia). rewrite <- land_255. change 256 with (2 ^ 8). rewrite <- Z.shiftl_mul_pow2 by lia.
  apply Z.bits_inj'. intros n Hn. rewrite Z.land_spec, !Z.shiftl_spec by lia. destruct (Z.ltb_spec n 8).
  - rewrite !(Z.testbit_neg_r _ (n - 8)) by lia. apply andb_false_r.
  - rewrite Z.land_spec, Z.shiftr_spec by lia. replace (n - 8 + 8) with n by lia. reflexivity.
Qed.
Lemma swap16_ok v : 0 <= v < 2 ^ 16 -> swap16 v = reversed 2 v.
Proof.
  intros H. unfold swap16, reversed. cbn [octets_of assemble]. rewrite Z.shiftl_mul_pow2, Z.shiftr_div_pow2, !land_255 by lia.
  rewrite lor_disjoint by (try (apply Z.mod_pos_bound; reflexivity); lia). change (2 ^ 8) with 256. lia.
Qed.
Lemma swap32_ok v : 0 <= v < 2 ^ 32 -> swap32 v = reversed 4 v.
Proof.
  intros H. unfold swap32, reversed. cbn [octets_of assemble]. rewrite !Z.shiftl_mul_pow2, !Z.shiftr_div_pow2, !land_255, !land_65280 by lia.
  change (2 ^ 24) with 16777216. change (2 ^ 8) with 256. rewrite !Z.div_div by lia. change (256 * 256) with 65536. change (65536 * 256) with 16777216.
  set (a := v mod 256). set (b := (v / 256) mod 256). set (c := (v / 65536) mod 256). set (d := (v / 16777216) mod 256).
  assert (0 <= a < 256 /\ 0 <= b < 256 /\ 0 <= c < 256 /\ 0 <= d < 256) as (A & B & C & D) by (repeat split; apply Z.mod_pos_bound; reflexivity).
  clearbody a b c d.
  replace (a * 16777216) with (a * 2 ^ 24) by reflexivity. rewrite (lor_disjoint a (b * 256 * 256) 24) by lia.
  replace (c * 256) with (c * 2 ^ 8) by reflexivity. rewrite (lor_disjoint c d 8) by lia.
  replace (a * 2 ^ 24 + b * 256 * 256) with ((a * 256 + b) * 2 ^ 16) by lia. rewrite lor_disjoint by lia. lia.
Qed.
Lemma reversed_range2 v : 0 <= reversed 2 v < 2 ^ 16.
Proof. unfold reversed. cbn [octets_of assemble]. pose proof (Z.mod_pos_bound v 256 eq_refl). pose proof (Z.mod_pos_bound (v / 256) 256 eq_refl). lia. Qed.
Lemma reversed_range4 v : 0 <= reversed 4 v < 2 ^ 32.
Proof. unfold reversed. cbn [octets_of assemble]. pose proof (Z.mod_pos_bound v 256 eq_refl). pose proof (Z.mod_pos_bound (v / 256) 256 eq_refl). pose proof (Z.mod_pos_bound (v / 256 / 256) 256 eq_refl). pose proof (Z.mod_pos_bound (v / 256 / 256 / 256) 256 eq_refl). lia. Qed.
Lemma peel q r : 0 <= r < 256 -> (q * 256 + r) mod 256 = r /\ (q * 256 + r) / 256 = q.
Proof. intros H. split; [rewrite Z.add_comm, Z.mod_add by lia; apply Z.mod_small; exact H|rewrite Z.div_add_l by lia; rewrite Z.div_small by exact H; lia]. Qed.
Lemma reversed_twice2 v : 0 <= v < 2 ^ 16 -> reversed 2 (reversed 2 v) = v.
Proof.
  intros H. pose proof (Z.mod_pos_bound v 256 eq_refl). pose proof (Z.mod_pos_bound (v / 256) 256 eq_refl). unfold reversed. cbn [octets_of assemble].
  destruct (peel (0 * 256 + v mod 256) ((v / 256) mod 256)) as (-> & ->); [assumption|]. rewrite (Z.mod_small (0 * 256 + v mod 256)) by lia.
  pose proof (Z.div_mod v 256). rewrite (Z.mod_small (v / 256)); [lia|]. split; [apply Z.div_pos; lia|apply Z.div_lt_upper_bound; lia].
Qed.
Lemma reversed_twice4 v : 0 <= v < 2 ^ 32 -> reversed 4 (reversed 4 v) = v.
Proof.
  intros H. unfold reversed. cbn [octets_of assemble]. set (a := v mod 256). set (b := (v / 256) mod 256). set (c := (v / 256 / 256) mod 256). set (d := (v / 256 / 256 / 256) mod 256).
  assert (0 <= a < 256 /\ 0 <= b < 256 /\ 0 <= c < 256 /\ 0 <= d < 256) as (A & B & C & D) by (repeat split; apply Z.mod_pos_bound; reflexivity).
  assert (V : v = ((d * 256 + c) * 256 + b) * 256 + a).
  { unfold a, b, c, d. rewrite (Z.mod_small (v / 256 / 256 / 256)). 2: { rewrite !Z.div_div by lia. split; [apply Z.div_pos; lia|apply Z.div_lt_upper_bound; lia]. }
    pose proof (Z.div_mod v 256). pose proof (Z.div_mod (v / 256) 256). pose proof (Z.div_mod (v / 256 / 256) 256). lia. }
  clearbody a b c d. subst v.
  destruct (peel (((0 * 256 + a) * 256 + b) * 256 + c) d D) as (-> & ->). destruct (peel ((0 * 256 + a) * 256 + b) c C) as (-> & ->). destruct (peel (0 * 256 + a) b B) as (-> & ->). rewrite (Z.mod_small (0 * 256 + a)) by lia. lia.
Qed.

(** Names. *)
Lemma same_spec a b : same a b = true <-> a = b.
Proof. unfold same. destruct (list_eq_dec Z.eq_dec a b); split; intros; congruence. Qed.
Lemma basename_dir d : forall name x, ~ In 47 name -> basename (d ++ 47 :: name) x = name.
Proof.
  induction d as [|c d IH]; intros name x N; cbn [app basename].
  - cbn [Z.eqb Pos.eqb]. clear x. assert (G : forall l x, ~ In 47 l -> basename l x = x).
    { induction l as [|c l IH]; intros x M; [reflexivity|]. cbn [basename]. destruct (Z.eqb_spec c 47) as [-> |]; [destruct M; left; reflexivity|]. apply IH. intros I. apply M. right. exact I. }
    apply G. exact N.
  - destruct (Z.eqb_spec c 47); apply IH; exact N.
Qed.
Lemma basename_plain l : forall x, ~ In 47 l -> basename l x = x.
Proof.
  induction l as [|c l IH]; intros x M; [reflexivity|]. cbn [basename]. destruct (Z.eqb_spec c 47) as [-> |]; [destruct M; left; reflexivity|]. apply IH. intros I. apply M. right. exact I.
Qed.
Definition names : list (list Z) := [n_dec; n_hex; n_oct; n_ntohs; n_htons; n_ntohl; n_htonl].
Lemma names_plain n : In n names -> ~ In 47 n.
Proof. intros H. cbn [names In] in H. decompose [or] H; try contradiction; subst; cbn; intros I; decompose [or] I; try discriminate; contradiction. Qed.
Lemma path_base name path : In name names -> path_to name path -> basename path path = name.
Proof. intros N [-> |(d & ->)]; [apply basename_plain|apply basename_dir]; apply names_plain; exact N. Qed.

Lemma show_answers name path v : In name names -> path_to name path -> 0 <= v < 2 ^ 64 -> answers name v (show (choose path) v).
Proof.
  intros N P H. unfold choose. rewrite (path_base name path N P). unfold answers.
  assert (H16 : 0 <= v mod 2 ^ 16 < 2 ^ 16) by (apply Z.mod_pos_bound; reflexivity). assert (H32 : 0 <= v mod 2 ^ 32 < 2 ^ 32) by (apply Z.mod_pos_bound; reflexivity).
  pose proof (reversed_range2 (v mod 2 ^ 16)). pose proof (reversed_range4 (v mod 2 ^ 32)).
  cbn [names In] in N. destruct N as [<- |[<- |[<- |[<- |[<- |[<- |[<- |[]]]]]]]];
    repeat match goal with |- context [same ?a ?b] => let r := eval vm_compute in (same a b) in change (same a b) with r end; cbn [show].
  - left. rewrite number_dec by exact H. split; reflexivity.
  - right; left. rewrite <- number_hex by exact H. split; reflexivity.
  - do 2 right; left. rewrite <- number_oct by exact H. split; reflexivity.
  - do 3 right; left. unfold u16. change 65536 with (2 ^ 16). rewrite swap16_ok by exact H16. rewrite number_dec by lia. split; [left|]; reflexivity.
  - do 3 right; left. unfold u16. change 65536 with (2 ^ 16). rewrite swap16_ok by exact H16. rewrite number_dec by lia. split; [right; left|]; reflexivity.
  - do 4 right. unfold u32. change 4294967296 with (2 ^ 32). rewrite swap32_ok by exact H32. rewrite number_dec by lia. split; [left|]; reflexivity.
  - do 4 right. unfold u32. change 4294967296 with (2 ^ 32). rewrite swap32_ok by exact H32. rewrite number_dec by lia. split; [right; left|]; reflexivity.
Qed.

(** Strings. *)
Lemma space_ends r : r = [] \/ In (hd 0 r) [32; 9; 10; 11; 12; 13] -> ends r.
Proof. intros [-> |H]; [exact I|]. destruct r as [|c r]; [exact I|]. cbn [hd In] in H. cbn [ends]. lia. Qed.
Lemma stands_range s v : stands_for s v -> 0 <= v < 2 ^ 64.
Proof. intros (b & r & n & _ & _ & _ & ->). destruct (Z.abs n <? 2 ^ 64); [apply Z.mod_pos_bound; reflexivity|lia]. Qed.
Lemma stands_convert c s v : stands_for s v -> convert c s = Some (show c v).
Proof.
  intros (b & r & n & -> & N & R & ->). unfold convert, number_unsigned. rewrite (strtoull_ok b n r N (space_ends r R)). destruct r as [|x r]; [reflexivity|].
  destruct R as [R|R]; [discriminate|]. cbn [hd] in R. apply isspace_in in R. rewrite R. reflexivity.
Qed.
Lemma digits_any base l : forall v, snd (digits base l v true) = true.
Proof. induction l as [|c l IH]; intros v; cbn [digits]; [reflexivity|]. destruct (worth c <? base); [apply IH|reflexivity]. Qed.
Lemma prefix_any c l : 48 <= c <= 57 -> let '(base, l') := prefix (c :: l) in snd (digits base l' 0 false) = true.
Proof.
  intros H. assert (W : worth c = c - 48) by (unfold worth; destruct (Z.leb_spec 48 c), (Z.leb_spec c 57); cbn [andb]; lia).
  destruct (Z.eq_dec c 48) as [-> |N].
  - rewrite prefix_48. assert (E : snd (digits 8 (48 :: l) 0 false) = true) by (cbn [digits]; rewrite W; apply digits_any).
    destruct l as [|x [|d l]]; [exact E|exact E|]. destruct (((x =? 120) || (x =? 88)) && (worth d <? 16)) eqn:X; [|exact E].
    apply andb_true_iff in X. cbn [digits]. rewrite (proj2 X). apply digits_any.
  - rewrite prefix_other by exact N. cbn [digits]. rewrite W. destruct (Z.ltb_spec (c - 48) 10); [apply digits_any|lia].
Qed.
Lemma started_subject s : started s -> subject s <> None.
Proof.
  intros (b & r & n & -> & H). unfold subject. destruct H as [sp b m F B|sp b m F B|sp b m F B]; destruct (body_first b m B) as (c & t & Eb & C & _); subst b; rewrite <- app_assoc; cbn [app]; pose proof (prefix_any c (t ++ r) C) as P.
  - rewrite spaces_ok; [|exact F|right; cbn [hd]; unfold isspace; destruct (Z.eqb_spec c 32), (Z.leb_spec 9 c), (Z.leb_spec c 13); reflexivity || lia].
    destruct (Z.eqb_spec c 45); [lia|]. destruct (Z.eqb_spec c 43); [lia|]. destruct (prefix (c :: t ++ r)) as [base l']. destruct (digits base l' 0 false) as [[v q] a]. cbn [snd] in P. subst a. discriminate.
  - rewrite spaces_ok by (exact F || (right; reflexivity)). cbn [Z.eqb Pos.eqb]. destruct (prefix (c :: t ++ r)) as [base l']. destruct (digits base l' 0 false) as [[v q] a]. cbn [snd] in P. subst a. discriminate.
  - rewrite spaces_ok by (exact F || (right; reflexivity)). cbn [Z.eqb Pos.eqb]. destruct (prefix (c :: t ++ r)) as [base l']. destruct (digits base l' 0 false) as [[v q] a]. cbn [snd] in P. subst a. discriminate.
Qed.
Lemma nonsense_convert c s : nonsense s -> convert c s = None.
Proof.
  intros (V & H). unfold convert, number_unsigned. destruct (strto_inv s) as [(S0 & _ & E)|(a & rest & n & E & _ & Nu & _ & R & _ & F)].
  - destruct H as [H|(N & H)]; [apply started_subject in H; contradiction|].
    rewrite E. destruct s as [|x s]; [contradiction|]. cbn [hd] in H. destruct (isspace x) eqn:S; [apply isspace_in in S; contradiction|reflexivity].
  - destruct (strtoull s) as [v r]. cbn [fst snd] in R, F. subst r. destruct rest as [|x rest].
    + destruct (V v). exists a, [], n. repeat split; auto.
    + destruct (isspace x) eqn:S; [|reflexivity]. apply isspace_in in S. destruct (V v). exists a, (x :: rest), n. repeat split; auto.
Qed.
(** And these are all of the strings. *)
Lemma empty_convert c s : ~ started s -> (s = [] \/ In (hd 0 s) [32; 9; 10; 11; 12; 13]) -> convert c s = Some (show c 0).
Proof.
  intros N H. unfold convert, number_unsigned. destruct (strto_inv s) as [(_ & _ & E)|(a & rest & n & E & _ & Nu & _)]; [|destruct N; exists a, rest, n; auto].
  rewrite E. destruct s as [|x s]; [reflexivity|]. destruct H as [H|H]; [discriminate|]. cbn [hd] in H. apply isspace_in in H. rewrite H. reflexivity.
Qed.
Lemma trichotomy s : (exists v, stands_for s v) \/ nonsense s \/ (~ started s /\ (s = [] \/ In (hd 0 s) [32; 9; 10; 11; 12; 13])).
Proof.
  assert (D : In (hd 0 s) [32; 9; 10; 11; 12; 13] \/ ~ In (hd 0 s) [32; 9; 10; 11; 12; 13]) by (destruct (isspace (hd 0 s)) eqn:S; [left; apply isspace_in; exact S|right; intros I; apply isspace_in in I; congruence]).
  destruct (strto_inv s) as [(S0 & _ & E)|(a & rest & n & E & _ & Nu & _ & R & _ & F)].
  - assert (NS : ~ started s) by (intros H; apply started_subject in H; contradiction).
    assert (NV : forall v, ~ stands_for s v) by (intros v (b & r & n & Es & Nb & _); apply NS; exists b, r, n; auto).
    destruct s as [|x s]; [right; right; auto|]. destruct D as [D|D]; [right; right; auto|]. right; left. split; [exact NV|]. right. split; [discriminate|exact D].
  - destruct (isspace (hd 0 rest)) eqn:S.
    + left. eexists. exists a, rest, n. repeat split; auto. right. apply isspace_in. exact S.
    + destruct rest as [|x rest]; [left; eexists; exists a, [], n; repeat split; auto|]. cbn [hd] in S. right; left. split; [|left; exists a, (x :: rest), n; auto].
      intros v H. pose proof (stands_convert DEC s v H) as C. unfold convert, number_unsigned in C. destruct (strtoull s) as [w q]. cbn [snd] in R. subst q. rewrite S in C. discriminate.
Qed.

Lemma loop_ok c l vs tail : Forall2 stands_for l vs -> loop c (l ++ tail) = (concat (map (show c) vs) ++ fst (loop c tail), snd (loop c tail)).
Proof.
  induction 1 as [|s v l vs H _ IH]; cbn [app map concat loop].
  - destruct (loop c tail); reflexivity.
  - rewrite (stands_convert c s v H), IH, app_assoc. reflexivity.
Qed.
Lemma loop_ok_end c l vs : Forall2 stands_for l vs -> loop c l = (concat (map (show c) vs), 0).
Proof. intros H. pose proof (loop_ok c l vs [] H) as E. rewrite !app_nil_r in E. exact E. Qed.
Lemma show_all name path l vs : In name names -> path_to name path -> Forall2 stands_for l vs -> Forall2 (answers name) vs (map (show (choose path)) vs).
Proof.
  intros N P. induction 1 as [|s v l vs H _ IH]; [constructor|]. cbn [map]. constructor; [|exact IH]. apply show_answers; [exact N|exact P|]. exact (stands_range s v H).
Qed.
Lemma main_args path args stdin : given args -> main path args stdin = loop (choose path) args.
Proof.
  intros (N & M). unfold main. destruct args as [|a [|b args]]; [contradiction| |reflexivity]. destruct (same a [45]) eqn:S; [|reflexivity]. apply same_spec in S. congruence.
Qed.

(** Lines. *)
Lemma fgets_line s : ~ In 10 s -> forall room rest, (length s < room)%nat -> fgets room (s ++ 10 :: rest) = (s ++ [10], rest).
Proof.
  induction s as [|c s IH]; intros N room rest H; (destruct room as [|room]; [cbn in H; lia|]); cbn [app fgets length] in *; [reflexivity|].
  destruct (Z.eqb_spec c 10) as [-> |]; [destruct N; left; reflexivity|]. rewrite IH by (try (intros I; apply N; right; exact I); lia). reflexivity.
Qed.
Lemma before_nul_id l : ~ In 0 l -> before_nul l = l.
Proof. induction l as [|c l IH]; intros N; [reflexivity|]. cbn [before_nul]. destruct (Z.eqb_spec c 0) as [-> |]; [destruct N; left; reflexivity|]. rewrite IH; [reflexivity|]. intros I. apply N. right. exact I. Qed.
Lemma strings_lines ls : Forall is_line ls -> forall fuel, (length (concat ls) <= fuel)%nat -> strings fuel (concat ls) = ls.
Proof.
  induction 1 as [|l ls (s & E & N & Z0 & L) _ IH]; intros fuel F; [destruct fuel; reflexivity|]. cbn [concat] in *. rewrite app_length in F.
  subst l. rewrite app_length in F. cbn [length] in F. destruct fuel as [|fuel]; [lia|]. rewrite <- app_assoc. cbn [app]. cbn [strings].
  rewrite (fgets_line s N 63 (concat ls)) by lia. destruct (s ++ 10 :: concat ls) eqn:X; [destruct s; discriminate|]. rewrite IH by lia. f_equal. apply before_nul_id. intros I. apply in_app_or in I. destruct I as [I|[I|[]]]; [contradiction|discriminate].
Qed.
Lemma main_file path args ls : (args = [] \/ args = [[45]]) -> ls <> [] -> Forall is_line ls -> main path args (concat ls) = loop (choose path) ls.
Proof.
  intros A N F. unfold main. assert (E : (match args with [] => true | [a] => same a [45] | _ => false end) = true) by (destruct A as [-> | ->]; reflexivity). rewrite E, strings_lines by (exact F || lia). destruct ls; [contradiction|reflexivity].
Qed.

(** What is printed is read again. *)
Lemma write_length f base n : (length (write f base n) <= f)%nat.
Proof. revert n. induction f as [|f IH]; intros n; cbn [write]; [cbn; lia|]. destruct (n =? 0); [cbn; lia|]. rewrite app_length. specialize (IH (n / base)). cbn [length]. lia. Qed.
Lemma write_short f base n k : 2 <= base -> 0 <= n < base ^ Z.of_nat k -> (length (write f base n) <= k)%nat.
Proof.
  intros B. revert n k. induction f as [|f IH]; intros n k H; cbn [write]; [cbn; lia|]. destruct (Z.eqb_spec n 0); [cbn; lia|]. destruct k as [|k]; [cbn in H; lia|].
  rewrite app_length. rewrite Nat2Z.inj_succ, Z.pow_succ_r in H by lia. assert (0 <= n / base < base ^ Z.of_nat k) by (split; [apply Z.div_pos; lia|apply Z.div_lt_upper_bound; lia]). specialize (IH _ _ H0). cbn [length]. lia.
Qed.
Lemma letter_range d : 0 <= d < 16 -> 48 <= letter d.
Proof. intros H. pose proof (all_below 16 (fun d => 48 <=? letter d) eq_refl d H) as E. cbv beta in E. apply Z.leb_le in E. exact E. Qed.
Lemma write_in f base n c : 2 <= base <= 16 -> In c (write f base n) -> 48 <= c.
Proof.
  intros B. revert n. induction f as [|f IH]; intros n H; [destruct H|]. cbn [write] in H. destruct (n =? 0); [destruct H|]. apply in_app_or in H. destruct H as [H|[<- |[]]]; [exact (IH _ H)|]. apply letter_range. pose proof (Z.mod_pos_bound n base). lia.
Qed.
Definition shown (s : list Z) (n : Z) : Prop := body s n /\ (forall c, In c s -> 48 <= c) /\ (length s <= 25)%nat.
Lemma shown_dec n : 0 <= n < 2 ^ 64 -> shown (dec n) n.
Proof.
  intros H. split; [apply dec_body; exact H|]. unfold dec. destruct (n =? 0); [split; [intros c [<- |[]]; lia|cbn; lia]|]. split; [intros c I; apply write_in in I; lia|].
  assert (K : 0 <= n < 10 ^ Z.of_nat 20) by (change (10 ^ Z.of_nat 20) with 100000000000000000000; change (2 ^ 64) with 18446744073709551616 in H; lia). pose proof (write_short 64 10 n 20 ltac:(lia) K) as W. clear K H. revert W. generalize (write 64 10 n). intros l W. lia.
Qed.
Lemma shown_hex n : 0 <= n < 2 ^ 64 -> shown (hex n) n.
Proof.
  intros H. split; [apply hex_body; exact H|]. unfold hex. cbn [app]. destruct (n =? 0); [split; [intros c I; cbn in I; lia|cbn; lia]|]. split; [intros c [<- |[<- |I]]; try lia; apply write_in in I; lia|].
  assert (K : 0 <= n < 16 ^ Z.of_nat 16) by (change (16 ^ Z.of_nat 16) with 18446744073709551616; change (2 ^ 64) with 18446744073709551616 in H; lia). pose proof (write_short 64 16 n 16 ltac:(lia) K) as W. clear K H. revert W. generalize (write 64 16 n). intros l W. cbn [length]. lia.
Qed.
Lemma shown_oct n : 0 <= n < 2 ^ 64 -> shown (if n =? 0 then [48; 48] else oct n) n.
Proof.
  intros H. destruct (Z.eqb_spec n 0) as [-> |N].
  - split; [|split; [intros c I; cbn in I; lia|cbn; lia]]. apply body_oct; [|reflexivity]. apply (denotes_snoc 8 [48] 0 48 0); [|left; reflexivity|lia]. apply (denotes_snoc 8 [] 0 48 0); [constructor|left; reflexivity|lia].
  - split; [apply oct_body; exact H|]. unfold oct. split; [intros c [<- |I]; [lia|apply write_in in I; lia]|].
    assert (K : 0 <= n < 8 ^ Z.of_nat 22) by (change (8 ^ Z.of_nat 22) with 73786976294838206464; change (2 ^ 64) with 18446744073709551616 in H; lia). pose proof (write_short 64 8 n 22 ltac:(lia) K) as W. clear K H. revert W. generalize (write 64 8 n). intros l W. cbn [length]. lia.
Qed.
Lemma shown_line s n : shown s n -> 0 <= n < 2 ^ 64 -> is_line (s ++ [10]) /\ stands_for (s ++ [10]) n.
Proof.
  intros (B & C & L) H. split.
  - exists s. split; [reflexivity|]. split; [intros I; apply C in I; lia|]. split; [intros I; apply C in I; lia|lia].
  - exists s, [10], n. split; [reflexivity|]. split; [apply (numeral_plain [] s n); [constructor|exact B]|]. split; [right; cbn; tauto|]. rewrite Z.abs_eq by lia. destruct (Z.ltb_spec n (2 ^ 64)); [|lia]. rewrite Z.mod_small by exact H. reflexivity.
Qed.
Lemma lines_again (f : Z -> list Z) (g : Z -> Z) vs :
  (forall v, In v vs -> is_line (f v) /\ stands_for (f v) (g v)) -> Forall is_line (map f vs) /\ Forall2 stands_for (map f vs) (map g vs).
Proof.
  induction vs as [|v vs IH]; intros H; [split; constructor|]. cbn [map]. destruct (H v (or_introl eq_refl)) as (A & B). destruct IH as (C & D); [intros w I; apply H; right; exact I|]. split; constructor; assumption.
Qed.
