(** Property C82. *)

From Coq Require Import ZArith List Bool Lia.
From Verif Require Import CInt CUtil UbenvModel UbenvSpec UbenvProofs.
Import ListNotations.
Local Open Scope Z_scope.

(** The checksum by way of the table is the checksum bit by bit. *)
Theorem C82_crc : forall l, octets l -> crc32 0 l = CRC l.
Proof. intros l F. unfold crc32, CRC. rewrite eights_ones by lia. rewrite feed_ones by exact F. reflexivity. Qed.
Print Assumptions C82_crc.

(** It is not the same for two blocks that differ in no more than four octets in a row. *)
Theorem C82_detect : forall before a b after, octets before -> octets a -> octets b -> octets after -> length a = length b -> (length a <= 4)%nat -> a <> b ->
  CRC (before ++ a ++ after) <> CRC (before ++ b ++ after).
Proof.
  intros before a b after P A B Q L S N E.
  assert (F : forall x, octets x -> octets (before ++ x ++ after)) by (intros x X; apply Forall_app; split; [exact P|apply Forall_app; split; assumption]).
  unfold CRC in E. rewrite !feed_ones in E by (apply F; assumption).
  assert (E' : ones 0xffffffff (before ++ a ++ after) = ones 0xffffffff (before ++ b ++ after)).
  { apply (f_equal (fun z => Z.lxor z 0xffffffff)) in E. rewrite !Z.lxor_assoc, Z.lxor_nilpotent, !Z.lxor_0_r in E. exact E. }
  clear E. rewrite !ones_app in E'. set (s := ones 0xffffffff before) in E'. assert (R : 0 <= s < 2 ^ 32) by (apply ones_range; [exact P|lia]).
  apply ones_inj in E'; try assumption; try (apply ones_range; assumption). rewrite !ones_iter in E' by assumption. rewrite L in E'.
  assert (V : forall x, octets x -> (length x <= 4)%nat -> 0 <= Z.lxor s (value x) < 2 ^ 32).
  { intros x X XL. apply lxor_range; [lia|exact R|]. pose proof (value_range x X) as V. split; [lia|]. eapply Z.lt_le_trans; [apply V|]. apply Z.pow_le_mono_r; lia. }
  apply iter_inj in E'; [|apply V; [exact A|exact S]|apply V; [exact B|lia]].
  apply (f_equal (fun z => Z.lxor s z)) in E'. rewrite <- !Z.lxor_assoc, Z.lxor_nilpotent, !Z.lxor_0_l in E'. apply N. apply value_inj; assumption.
Qed.
Print Assumptions C82_detect.

Lemma word_holds big l w : holds big l w -> word big l = w.
Proof. intros (a & b & c & d & E & ->). unfold word. destruct big; subst l; cbn [rev app fold_right]; lia. Qed.
Lemma holds_inj big l l' w : octets l -> octets l' -> holds big l w -> holds big l' w -> l = l'.
Proof.
  intros F F' (a & b & c & d & E & W) (a' & b' & c' & d' & E' & W').
  assert (X : is_u8 a /\ is_u8 b /\ is_u8 c /\ is_u8 d) by (destruct big; subst l; inversion F as [|? ? ? F1]; subst; inversion F1 as [|? ? ? F2]; subst; inversion F2 as [|? ? ? F3]; subst; inversion F3; subst; tauto).
  assert (X' : is_u8 a' /\ is_u8 b' /\ is_u8 c' /\ is_u8 d') by (destruct big; subst l'; inversion F' as [|? ? ? F1]; subst; inversion F1 as [|? ? ? F2]; subst; inversion F2 as [|? ? ? F3]; subst; inversion F3; subst; tauto).
  unfold is_u8 in *. assert (a = a' /\ b = b' /\ c = c' /\ d = d') as (-> & -> & -> & ->) by lia. destruct big; congruence.
Qed.
Lemma holds_length big l w : holds big l w -> length l = 4%nat.
Proof. intros (a & b & c & d & E & _). destruct big; subst l; reflexivity. Qed.

(** So an environment with damage in up to four octets in a row, or to its checksum, is not
    used: nothing is printed and the result tells why. *)
Theorem C82_damage : forall big arguments stored before a b after unmapped, (length arguments <= 1)%nat -> arguments <> [[45; 63]] ->
  octets stored -> octets before -> octets a -> octets b -> octets after -> holds big stored (CRC (before ++ a ++ after)) ->
  (length a = length b -> (length a <= 4)%nat -> a <> b -> main big arguments (Some (stored ++ before ++ b ++ after)) unmapped = Some (3, [])) /\
  (forall stored', octets stored' -> length stored' = 4%nat -> stored' <> stored -> main big arguments (Some (stored' ++ before ++ a ++ after)) unmapped = Some (3, [])).
Proof.
  intros big arguments stored before a b after unmapped AL AN SO P A B Q H.
  assert (U : match match arguments with [] => None | n :: _ => Some n end with Some n => strneq 3 n [45; 63] | None => false end = false).
  { destruct arguments as [|n [|]]; [reflexivity| |cbn in AL; lia]. destruct n as [|x [|y [|z n]]]; cbn [strneq]; try reflexivity; [apply andb_false_r|..].
    - destruct (Z.eqb_spec x 45) as [->|]; [|reflexivity]. destruct (Z.eqb_spec y 63) as [->|]; [|reflexivity]. congruence.
    - destruct (x =? 45), (y =? 63); reflexivity. }
  assert (M : forall block, word big (firstn 4 block) <> crc32 0 (skipn 4 block) -> main big arguments (Some block) unmapped = Some (3, [])).
  { intros block W. unfold main. destruct arguments as [|n [|]]; [|rewrite U|cbn in AL; lia]; destruct (Z.eqb_spec (word big (firstn 4 block)) (crc32 0 (skipn 4 block))); try contradiction; reflexivity. }
  assert (F : forall x, octets x -> octets (before ++ x ++ after)) by (intros x X; apply Forall_app; split; [exact P|apply Forall_app; split; assumption]).
  split.
  - intros L S N. apply M. pose proof (holds_length _ _ _ H) as HL. rewrite firstn_app, skipn_app, HL, Nat.sub_diag. rewrite firstn_all2 by lia. rewrite skipn_all2 by lia. cbn [firstn skipn app]. rewrite app_nil_r.
    rewrite (word_holds _ _ _ H). rewrite C82_crc by (apply F, B). apply C82_detect; assumption.
  - intros stored' SO' L N. apply M. rewrite firstn_app, skipn_app, L, Nat.sub_diag. rewrite firstn_all2 by lia. rewrite skipn_all2 by lia. cbn [firstn skipn app]. rewrite app_nil_r.
    rewrite C82_crc by (apply F, A). intros E. apply N. apply (holds_inj big stored' stored (CRC (before ++ a ++ after)) SO' SO); [|exact H]. rewrite <- E.
    destruct stored' as [|x [|y [|z [|t [|]]]]]; try discriminate L. unfold word. destruct big; [exists t, z, y, x|exists x, y, z, t]; (split; [reflexivity|]); cbn [rev app fold_right]; lia.
Qed.
Print Assumptions C82_damage.

(** All variables are printed, in their order, if no name is given. *)
Theorem C82_list : forall big stored data es, octets data -> holds big stored (CRC data) -> environment data es ->
  main big [] (Some (stored ++ data)) true = Some (0, map (fun '(k, v) => k ++ [61] ++ v) es).
Proof.
  intros big stored data es F H E. unfold main. pose proof (holds_length _ _ _ H) as HL. rewrite firstn_app, skipn_app, HL, Nat.sub_diag. rewrite firstn_all2 by lia. rewrite skipn_all2 by lia. cbn [firstn skipn app]. rewrite app_nil_r.
  rewrite (word_holds _ _ _ H), C82_crc by exact F. rewrite Z.eqb_refl. cbn [negb]. rewrite (walk_all _ _ _ _ E) by lia. cbn [bind]. do 2 f_equal. apply map_ext. intros (k & v). reflexivity.
Qed.
Print Assumptions C82_list.

(** If one is given then the value printed is that of the first variable the keyword of
    which begins the name; nothing if there is none. *)
Theorem C82_lookup : forall big stored data es n, octets data -> holds big stored (CRC data) -> environment data es -> n <> [45; 63] ->
  (exists before k v after, es = before ++ (k, v) :: after /\ Forall (fun e => ~ begins (fst e) n) before /\ begins k n /\ main big [n] (Some (stored ++ data)) true = Some (0, [v])) \/
  (Forall (fun e => ~ begins (fst e) n) es /\ main big [n] (Some (stored ++ data)) true = Some (4, [])).
Proof.
  intros big stored data es n F H E N.
  assert (U : strneq 3 n [45; 63] = false).
  { destruct n as [|x [|y [|z n]]]; cbn [strneq]; try reflexivity; [apply andb_false_r|..].
    - destruct (Z.eqb_spec x 45) as [->|]; [|reflexivity]. destruct (Z.eqb_spec y 63) as [->|]; [|reflexivity]. congruence.
    - destruct (x =? 45), (y =? 63); reflexivity. }
  assert (M : main big [n] (Some (stored ++ data)) true = let* '(result, lines) := walk (S (length data)) data (Some n) 4 in Some (result, lines)).
  { unfold main. rewrite U. pose proof (holds_length _ _ _ H) as HL. rewrite firstn_app, skipn_app, HL, Nat.sub_diag. rewrite firstn_all2 by lia. rewrite skipn_all2 by lia. cbn [firstn skipn app]. rewrite app_nil_r.
    rewrite (word_holds _ _ _ H), C82_crc by exact F. rewrite Z.eqb_refl. reflexivity. }
  rewrite M. destruct (walk_one (S (length data)) data es n 4 E ltac:(lia)) as [(before & k & v & after & EE & B & K & W)|(B & W)]; rewrite W; [left|right; split; [exact B|reflexivity]].
  exists before, k, v, after. repeat (split; [assumption|]). reflexivity.
Qed.
Print Assumptions C82_lookup.

Lemma first_unique n : forall before before' e e' after after', before ++ e :: after = before' ++ e' :: after' ->
  Forall (fun x : list Z * list Z => ~ begins (fst x) n) before -> Forall (fun x : list Z * list Z => ~ begins (fst x) n) before' -> begins (fst e) n -> begins (fst e') n ->
  before = before' /\ e = e'.
Proof.
  induction before as [|x before IH]; intros [|x' before'] e e' after after' E B B' S S'; cbn [app] in E; injection E as E1 E2; subst.
  - split; reflexivity.
  - inversion B'; contradiction.
  - inversion B; contradiction.
  - inversion B; inversion B'; subst. destruct (IH _ _ _ _ _ E2 ltac:(assumption) ltac:(assumption) S S') as (-> & ->). split; reflexivity.
Qed.

(** So it is that of the variable of that name, if no keyword before it is a part of it. *)
Theorem C82_value : forall big stored data before n v after, octets data -> holds big stored (CRC data) -> environment data (before ++ (n, v) :: after) -> n <> [45; 63] ->
  Forall (fun e => ~ begins (fst e) n) before -> main big [n] (Some (stored ++ data)) true = Some (0, [v]).
Proof.
  intros big stored data before n v after F H E N B. assert (S : begins n n) by (exists []; symmetry; apply app_nil_r).
  destruct (C82_lookup big stored data _ n F H E N) as [(before' & k & v' & after' & EE & B' & K & W)|(B' & _)].
  - rewrite W. assert (X : before = before' /\ (n, v) = (k, v')).
    { apply (first_unique n before before' (n, v) (k, v') after after'); assumption. }
    destruct X as (_ & X). injection X as _ <-. reflexivity.
  - exfalso. apply Forall_app in B'. destruct B' as (_ & B'). inversion B'; subst. cbn [fst] in *. contradiction.
Qed.
Print Assumptions C82_value.

(** But a name that only begins with a keyword gets that keyword's value: here there is no
    variable "ab", and that of "a" is printed. *)
Theorem C82_name_refuted : forall big stored, let data := [97; 61; 49; 0; 0] in holds big stored (CRC data) ->
  environment data [([97], [49])] /\ main big [[97; 98]] (Some (stored ++ data)) true = Some (0, [[49]]).
Proof.
  intros big stored data H. assert (E : environment data [([97], [49])]) by (apply (env_more [97] [49] [0] []); [cbn; lia|cbn; lia|cbn; lia|constructor]). split; [exact E|].
  assert (F : octets data) by (repeat (apply Forall_cons; [red; lia|]); apply Forall_nil).
  destruct (C82_lookup big stored data _ [97; 98] F H E ltac:(discriminate)) as [(before & k & v & after & EE & _ & _ & W)|(B & _)].
  - destruct before as [|? [|]]; [injection EE as <- <- _; exact W|discriminate EE|discriminate EE].
  - exfalso. inversion B as [|? ? N _]; subst. apply N. exists [98]. reflexivity.
Qed.
Print Assumptions C82_name_refuted.

(** A variable without an equal sign makes it use a null pointer, and one without an end
    makes it use what is after the environment. *)
Theorem C82_format_refuted : forall big stored arguments, (arguments = [] \/ exists n, n <> [45; 63] /\ arguments = [n]) ->
  (holds big stored (CRC [97; 0; 0]) -> main big arguments (Some (stored ++ [97; 0; 0])) true = None) /\
  (holds big stored (CRC [97; 61; 49]) -> main big arguments (Some (stored ++ [97; 61; 49])) true = None).
Proof.
  intros big stored arguments A.
  assert (G : forall data, octets data -> (forall fuel name result, walk fuel data name result = None) -> holds big stored (CRC data) -> main big arguments (Some (stored ++ data)) true = None).
  { intros data F W H. unfold main. pose proof (holds_length _ _ _ H) as HL. rewrite firstn_app, skipn_app, HL, Nat.sub_diag. rewrite firstn_all2 by lia. rewrite skipn_all2 by lia. cbn [firstn skipn app]. rewrite app_nil_r.
    rewrite (word_holds _ _ _ H), C82_crc by exact F. rewrite Z.eqb_refl. cbn [negb]. destruct A as [->|(n & N & ->)]; [rewrite W; reflexivity|].
    replace (strneq 3 n [45; 63]) with false; [rewrite W; reflexivity|]. symmetry. destruct n as [|x [|y [|z n]]]; cbn [strneq]; try reflexivity; [apply andb_false_r|..].
    - destruct (Z.eqb_spec x 45) as [->|]; [|reflexivity]. destruct (Z.eqb_spec y 63) as [->|]; [|reflexivity]. congruence.
    - destruct (x =? 45), (y =? 63); reflexivity. }
  split; apply G; try (repeat (apply Forall_cons; [red; lia|]); apply Forall_nil); intros [|fuel] name result; reflexivity.
Qed.
Print Assumptions C82_format_refuted.

(** Nothing is looked at if there are too many arguments or the memory cannot be mapped. *)
Theorem C82_status : forall big arguments flash unmapped, ((2 <= length arguments)%nat -> main big arguments flash unmapped = Some (1, [])) /\
  ((length arguments <= 1)%nat -> arguments <> [[45; 63]] -> main big arguments None unmapped = Some (2, [])).
Proof.
  intros big arguments flash unmapped. split.
  - destruct arguments as [|? [|]]; cbn [length]; try lia. reflexivity.
  - destruct arguments as [|n [|]]; cbn [length]; try lia; [reflexivity|]. intros _ N. unfold main. destruct (strneq 3 n [45; 63]) eqn:S; [|reflexivity]. exfalso. apply N.
    destruct n as [|x [|y [|z n]]]; cbn [strneq] in S; try discriminate S; [rewrite andb_false_r in S; discriminate S|..].
    + rewrite !andb_true_iff, !Z.eqb_eq in S. destruct S as (-> & -> & _). reflexivity.
    + rewrite !andb_true_iff in S. destruct S as (_ & _ & S). discriminate S.
Qed.
Print Assumptions C82_status.

(** If the memory cannot be unmapped in the end, what is printed is the same, and the result
    tells it. *)
Theorem C82_unmap : forall big arguments stored data es, octets data -> holds big stored (CRC data) -> environment data es -> (arguments = [] \/ exists n, n <> [45; 63] /\ arguments = [n]) ->
  exists status lines, main big arguments (Some (stored ++ data)) true = Some (status, lines) /\ main big arguments (Some (stored ++ data)) false = Some (5, lines).
Proof.
  intros big arguments stored data es F H E A.
  assert (T : exists status lines, main big arguments (Some (stored ++ data)) true = Some (status, lines)).
  { destruct A as [->|(n & N & ->)]; [rewrite (C82_list _ _ _ _ F H E); do 2 eexists; reflexivity|].
    destruct (C82_lookup big stored data es n F H E N) as [(b & k & v & a & _ & _ & _ & W)|(_ & W)]; rewrite W; do 2 eexists; reflexivity. }
  destruct T as (status & lines & T). exists status, lines. split; [exact T|]. revert T. unfold main. pose proof (holds_length _ _ _ H) as HL. rewrite firstn_app, skipn_app, HL, Nat.sub_diag. rewrite firstn_all2 by lia. rewrite skipn_all2 by lia. cbn [firstn skipn app]. rewrite app_nil_r.
  rewrite (word_holds _ _ _ H), C82_crc by exact F. rewrite Z.eqb_refl. cbn [negb].
  destruct A as [->|(n & N & ->)].
  - destruct (walk _ _ _ _) as [(r & l)|]; cbn [bind]; [|discriminate]. intros T. injection T as -> ->. reflexivity.
  - replace (strneq 3 n [45; 63]) with false.
    + destruct (walk _ _ _ _) as [(r & l)|]; cbn [bind]; [|discriminate]. intros T. injection T as -> ->. reflexivity.
    + symmetry. destruct n as [|x [|y [|z n]]]; cbn [strneq]; try reflexivity; [apply andb_false_r|..].
      * destruct (Z.eqb_spec x 45) as [->|]; [|reflexivity]. destruct (Z.eqb_spec y 63) as [->|]; [|reflexivity]. congruence.
      * destruct (x =? 45), (y =? 63); reflexivity.
Qed.
Print Assumptions C82_unmap.

(** A case in which the hypotheses hold; and the checksum of "123456789", which is known. *)
Example C82_example : CRC [49; 50; 51; 52; 53; 54; 55; 56; 57] = 0xCBF43926 /\ crc32 0 [49; 50; 51; 52; 53; 54; 55; 56; 57] = 0xCBF43926 /\
  (let data := [97; 61; 49; 0; 98; 61; 0; 0; 255] in
   holds false [223; 130; 124; 113] (CRC data) /\ environment data [([97], [49]); ([98], [])] /\ main false [[98]] (Some ([223; 130; 124; 113] ++ data)) true = Some (0, [[]])).
Proof. split; [vm_compute; reflexivity|]. split; [vm_compute; reflexivity|]. cbv zeta.
  split; [exists 223, 130, 124, 113; split; [reflexivity|vm_compute; reflexivity]|]. split; [|vm_compute; reflexivity].
  apply (env_more [97] [49] [98; 61; 0; 0; 255] [([98], [])]); [cbn; lia|cbn; lia|cbn; lia|]. apply (env_more [98] [] [0; 255] []); [cbn; lia|cbn; lia|cbn; tauto|constructor].
Qed.
Print Assumptions C82_example.
