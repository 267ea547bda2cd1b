(** Numbers: what is read is what is denoted. *)

From Coq Require Import ZArith List Bool Lia.
From Verif Require Import CUtil CInt NumberModel NumberSpec.
Import ListNotations.
Local Open Scope Z_scope.

Lemma worth_table c d : In (c, d) table -> worth c = d /\ 0 <= d < 16.
Proof. intros H. unfold table in H. repeat (destruct H as [H|H]; [injection H as <- <-; split; [reflexivity|lia]|]). destruct H. Qed.
Lemma table_worth c : worth c < 16 -> In (c, worth c) table.
Proof.
  intros H. assert (C : (48 <= c <= 57) \/ (97 <= c <= 102) \/ (65 <= c <= 70)).
  { unfold worth in H. destruct (Z.leb_spec 48 c), (Z.leb_spec c 57), (Z.leb_spec 97 c), (Z.leb_spec c 122), (Z.leb_spec 65 c), (Z.leb_spec c 90); cbn [andb] in H; lia. }
  assert (D : In c (map fst table)) by (unfold table; cbn [map fst]; cbn [In]; lia).
  apply in_map_iff in D. destruct D as ((c' & d) & E & I). cbn [fst] in E. subst c'. destruct (worth_table c d I) as (-> & _). exact I.
Qed.
Lemma worth_nonneg c : 0 <= worth c.
Proof. unfold worth. destruct (Z.leb_spec 48 c), (Z.leb_spec c 57), (Z.leb_spec 97 c), (Z.leb_spec c 122), (Z.leb_spec 65 c), (Z.leb_spec c 90); cbn [andb]; lia. Qed.
Lemma worth_ends c rest : ends (c :: rest) -> worth c = 36.
Proof. unfold ends, worth. intros H. destruct (Z.leb_spec 48 c), (Z.leb_spec c 57), (Z.leb_spec 97 c), (Z.leb_spec c 122), (Z.leb_spec 65 c), (Z.leb_spec c 90); cbn [andb]; lia. Qed.

Lemma denotes_nonneg base l n : 0 < base -> denotes base l n -> 0 <= n.
Proof. intros B. induction 1 as [|l n c d D IH I L]; [lia|]. apply worth_table in I. nia. Qed.
Lemma denotes_in base l n c : denotes base l n -> In c l -> worth c < base /\ worth c < 16.
Proof. induction 1 as [|l n x d D IH I L]; intros H; [destruct H|]. apply in_app_or in H. destruct H as [H|[<- |[]]]; [apply IH; exact H|]. apply worth_table in I. lia. Qed.

Lemma digits_ok base l n : denotes base l n -> forall r any, digits base (l ++ r) 0 any = digits base r n (any || negb (Nat.eqb (length l) 0)).
Proof.
  induction 1 as [|l n c d D IH I L]; intros r any; [cbn [length Nat.eqb negb app]; rewrite orb_false_r; reflexivity|].
  rewrite <- app_assoc. cbn [app]. rewrite IH. cbn [digits]. destruct (worth_table c d I) as (-> & _). destruct (Z.ltb_spec d base); [|lia]. f_equal. rewrite app_length. cbn [length]. destruct (length l + 1)%nat eqn:E; [lia|]. rewrite orb_true_r. reflexivity.
Qed.
Lemma digits_ends base rest n any : base <= 16 -> ends rest -> digits base rest n any = (n, rest, any).
Proof. intros B E. destruct rest as [|c rest]; [reflexivity|]. cbn [digits]. rewrite (worth_ends _ _ E). destruct (Z.ltb_spec 36 base); [lia|reflexivity]. Qed.
Lemma digits_inv base l : base <= 16 -> forall pre n any v rest a, denotes base pre n -> digits base l n any = (v, rest, a) ->
  exists ds, l = ds ++ rest /\ denotes base (pre ++ ds) v /\ a = any || negb (Nat.eqb (length ds) 0).
Proof.
  intros B. induction l as [|c l IH]; intros pre n any v rest a D H; cbn [digits] in H.
  - injection H as <- <- <-. exists []. split; [reflexivity|]. split; [rewrite app_nil_r; exact D|]. cbn. rewrite orb_false_r. reflexivity.
  - destruct (Z.ltb_spec (worth c) base) as [L|L].
    + destruct (IH (pre ++ [c]) _ _ _ _ _ (denotes_snoc base pre n c (worth c) D (table_worth c ltac:(lia)) L) H) as (ds & -> & D2 & ->). exists (c :: ds). rewrite <- app_assoc in D2. cbn [app length Nat.eqb negb orb] in *. rewrite orb_true_r. auto.
    + injection H as <- <- <-. exists []. split; [reflexivity|]. split; [rewrite app_nil_r; exact D|]. cbn. rewrite orb_false_r. reflexivity.
Qed.

Lemma isspace_in c : isspace c = true <-> In c [32; 9; 10; 11; 12; 13].
Proof. unfold isspace. cbn [In]. rewrite orb_true_iff, andb_true_iff, Z.eqb_eq, !Z.leb_le. lia. Qed.
Lemma spaces_ok sp b : Forall (fun c => In c [32; 9; 10; 11; 12; 13]) sp -> (b = [] \/ isspace (hd 0 b) = false) -> spaces (sp ++ b) = b.
Proof.
  induction 1 as [|c sp H _ IH]; intros N.
  - cbn [app]. destruct b as [|c b]; [reflexivity|]. cbn [spaces]. destruct N as [N|N]; [discriminate|]. cbn [hd] in N. rewrite N. reflexivity.
  - cbn [app spaces]. apply isspace_in in H. rewrite H. apply IH. exact N.
Qed.
Lemma spaces_inv l : exists sp, l = sp ++ spaces l /\ Forall (fun c => In c [32; 9; 10; 11; 12; 13]) sp.
Proof.
  induction l as [|c l (sp & E & F)]; [exists []; split; [reflexivity|constructor]|]. cbn [spaces]. destruct (isspace c) eqn:S; [|exists []; split; [reflexivity|constructor]].
  exists (c :: sp). cbn [app]. rewrite <- E. split; [reflexivity|]. constructor; [apply isspace_in; exact S|exact F].
Qed.

(** A number begins with a digit. *)
Lemma body_first b n : body b n -> exists c t, b = c :: t /\ 48 <= c <= 57 /\ 0 <= n.
Proof.
  intros [l m D N H|l m D H|x l m D N I].
  - destruct l as [|c t]; [contradiction|]. exists c, t. split; [reflexivity|]. pose proof (denotes_in _ _ _ c D (or_introl eq_refl)) as W. pose proof (denotes_nonneg 10 _ _ ltac:(lia) D). split; [|assumption]. destruct W as [W _]. unfold worth in W. destruct (Z.leb_spec 48 c), (Z.leb_spec c 57), (Z.leb_spec 97 c), (Z.leb_spec c 122), (Z.leb_spec 65 c), (Z.leb_spec c 90); cbn [andb] in W; lia.
  - destruct l as [|c t]; [discriminate|]. cbn [hd] in H. subst c. exists 48, t. split; [reflexivity|]. pose proof (denotes_nonneg 8 _ _ ltac:(lia) D). split; [lia|assumption].
  - exists 48, (x :: l). split; [reflexivity|]. pose proof (denotes_nonneg 16 _ _ ltac:(lia) D). split; [lia|assumption].
Qed.
Lemma prefix_48 l : prefix (48 :: l) = match l with x :: d :: l' => if ((x =? 120) || (x =? 88)) && (worth d <? 16) then (16, d :: l') else (8, 48 :: l) | _ => (8, 48 :: l) end.
Proof. destruct l as [|x [|d l]]; reflexivity. Qed.
Lemma prefix_other c l : c <> 48 -> prefix (c :: l) = (10, c :: l).
Proof. intros N. unfold prefix. destruct c as [|p|p]; try reflexivity. repeat (destruct p as [p|p|]; try reflexivity). contradiction. Qed.
Lemma prefix_ok b n rest : body b n -> ends rest -> exists base l, prefix (b ++ rest) = (base, l) /\ digits base l 0 false = (n, rest, true).
Proof.
  intros [l m D N H|l m D H|x l m D N I] E.
  - exists 10, (l ++ rest). split; [destruct l as [|c t]; [contradiction|]; cbn [app hd] in *; apply prefix_other; exact H|]. rewrite (digits_ok _ _ _ D), digits_ends by (exact E || lia). destruct l; [contradiction|reflexivity].
  - exists 8, (l ++ rest). split.
    + destruct l as [|c t]; [discriminate|]. cbn [hd] in H. subst c. cbn [app]. rewrite prefix_48. destruct (t ++ rest) as [|x [|d r]] eqn:T; try reflexivity. assert ((x =? 120) || (x =? 88) = false) as ->; [|reflexivity].
      destruct t as [|y t].
      * cbn [app] in T. subst rest. unfold ends in E. destruct (Z.eqb_spec x 120), (Z.eqb_spec x 88); try reflexivity; lia.
      * cbn [app] in T. injection T as -> _. pose proof (denotes_in _ _ _ x D (or_intror (or_introl eq_refl))) as [W _]. destruct (Z.eqb_spec x 120) as [-> |]; [cbn in W; lia|]. destruct (Z.eqb_spec x 88) as [-> |]; [cbn in W; lia|reflexivity].
    + rewrite (digits_ok _ _ _ D), digits_ends by (exact E || lia). destruct l; [discriminate|reflexivity].
  - exists 16, (l ++ rest). split.
    + destruct l as [|d t]; [contradiction|]. cbn [app]. rewrite prefix_48. pose proof (denotes_in _ _ _ d D (or_introl eq_refl)) as [W _]. assert ((x =? 120) || (x =? 88) = true) as -> by (destruct I as [<- |[<- |[]]]; reflexivity). destruct (Z.ltb_spec (worth d) 16); [reflexivity|lia].
    + rewrite (digits_ok _ _ _ D), digits_ends by (exact E || lia). destruct l; [contradiction|reflexivity].
Qed.
Lemma prefix_inv l base l' v rest : prefix l = (base, l') -> digits base l' 0 false = (v, rest, true) -> exists b, l = b ++ rest /\ body b v.
Proof.
  intros P D. destruct l as [|c l]; [injection P as <- <-; discriminate D|]. destruct (Z.eq_dec c 48) as [-> |N].
  - assert (G : (base = 8 /\ l' = 48 :: l) \/ (base = 16 /\ exists x, l = x :: l' /\ In x [120; 88])).
    { rewrite prefix_48 in P. destruct l as [|x [|d r]]; [left; injection P as <- <-; auto|left; injection P as <- <-; auto|]. destruct (((x =? 120) || (x =? 88)) && (worth d <? 16)) eqn:E; [|left; injection P as <- <-; auto]. right. injection P as <- <-. split; [reflexivity|]. exists x. split; [reflexivity|]. apply andb_true_iff in E. destruct E as [E _]. apply orb_true_iff in E. rewrite !Z.eqb_eq in E. cbn [In]. lia. }
    destruct G as [(-> & ->)|(-> & x & -> & I)].
    + destruct (digits_inv 8 (48 :: l) ltac:(lia) [] 0 _ _ _ _ (denotes_nil 8) D) as (ds & E & Dn & A). exists ds. split; [exact E|]. apply body_oct; [exact Dn|]. destruct ds as [|y ds]; [discriminate A|]. cbn [app] in E. injection E as <- _. reflexivity.
    + destruct (digits_inv 16 l' ltac:(lia) [] 0 _ _ _ _ (denotes_nil 16) D) as (ds & E & Dn & A). exists (48 :: x :: ds). subst l'. split; [reflexivity|]. apply body_hex; [exact Dn|intros ->; discriminate A|exact I].
  - rewrite prefix_other in P by exact N. injection P as <- <-. destruct (digits_inv 10 (c :: l) ltac:(lia) [] 0 _ _ _ _ (denotes_nil 10) D) as (ds & E & Dn & A). exists ds. split; [exact E|]. destruct ds as [|y ds]; [discriminate A|]. cbn [app] in E. injection E as <- _. apply body_dec; [exact Dn|discriminate|exact N].
Qed.

(** What is read of a string that starts with a numeral. *)
Definition signed (s : bool * Z) : Z := let '(negative, v) := s in if negative then - v else v.
Lemma subject_ok s n rest : numeral s n -> ends rest -> exists negative v, subject (s ++ rest) = Some (negative, v, rest) /\ signed (negative, v) = n /\ 0 <= v.
Proof.
  intros H E. unfold subject. destruct H as [sp b m F B|sp b m F B|sp b m F B]; destruct (body_first b m B) as (c & t & Eb & C & Nn); destruct (prefix_ok b m rest B E) as (base & l & P & D); rewrite <- app_assoc.
  - rewrite spaces_ok; [|exact F|right; subst b; cbn [app hd]; unfold isspace; destruct (Z.eqb_spec c 32), (Z.leb_spec 9 c), (Z.leb_spec c 13); reflexivity || lia].
    exists false, m. split; [|split; [reflexivity|exact Nn]]. rewrite Eb in *. cbn [app] in *. destruct (Z.eqb_spec c 45); [lia|]. destruct (Z.eqb_spec c 43); [lia|]. rewrite P, D. reflexivity.
  - rewrite spaces_ok; [|exact F|right; reflexivity]. exists false, m. split; [|split; [reflexivity|exact Nn]]. cbn [app Z.eqb Pos.eqb]. rewrite P, D. reflexivity.
  - rewrite spaces_ok; [|exact F|right; reflexivity]. exists true, m. split; [|split; [reflexivity|exact Nn]]. cbn [app Z.eqb Pos.eqb]. rewrite P, D. reflexivity.
Qed.
Lemma subject_inv s negative v rest : subject s = Some (negative, v, rest) -> exists a, s = a ++ rest /\ numeral a (signed (negative, v)) /\ 0 <= v /\ a <> [].
Proof.
  unfold subject. intros H. destruct (spaces_inv s) as (sp & Es & F). set (l := spaces s) in *.
  assert (G : forall l', (let '(base, l) := prefix l' in match digits base l 0 false with (value, rest, true) => Some (negative, value, rest) | (_, _, false) => None end) = Some (negative, v, rest) -> exists b, l' = b ++ rest /\ body b v).
  { intros l' K. destruct (prefix l') as [base l2] eqn:P. destruct (digits base l2 0 false) as [[value r] [|]] eqn:D; [|discriminate K]. injection K as -> ->. exact (prefix_inv _ _ _ _ _ P D). }
  assert (T : exists l' sg, l = sg ++ l' /\ (let '(base, l) := prefix l' in match digits base l 0 false with (value, rest, true) => Some (negative, value, rest) | (_, _, false) => None end) = Some (negative, v, rest) /\ ((negative = true /\ sg = [45]) \/ (negative = false /\ (sg = [] \/ sg = [43])))).
  { assert (NG : forall b l', (let '(base, l) := prefix l' in match digits base l 0 false with (value, rest, true) => Some (b, value, rest) | (_, _, false) => None end) = Some (negative, v, rest) -> negative = b).
    { intros b l' K. destruct (prefix l') as [base l2]. destruct (digits base l2 0 false) as [[value r] [|]]; congruence. }
    destruct l as [|c t]; [exists [], []; split; [reflexivity|]; pose proof (NG false [] H); subst negative; auto|]. destruct (Z.eqb_spec c 45) as [-> |N1].
    - exists t, [45]. split; [reflexivity|]. pose proof (NG true t H). subst negative. auto.
    - destruct (Z.eqb_spec c 43) as [-> |N2]; [exists t, [43]; pose proof (NG false t H)|exists (c :: t), []; pose proof (NG false (c :: t) H)]; (split; [reflexivity|]); subst negative; auto. }
  destruct T as (l' & sg & El & K & S). destruct (G _ K) as (b & Eb & B). destruct (body_first b v B) as (c & t & Eb2 & _ & Nn). exists (sp ++ sg ++ b). split; [rewrite Es at 1; rewrite El, Eb; rewrite <- !app_assoc; reflexivity|].
  split; [|split; [exact Nn|intros X; apply app_eq_nil in X; destruct X as [_ X]; apply app_eq_nil in X; destruct X as [_ X]; congruence]].
  destruct S as [(-> & ->)|(-> & [-> | ->])]; cbn [signed app].
  - apply numeral_minus; assumption.
  - apply numeral_plain; assumption.
  - apply numeral_plus; assumption.
Qed.

Lemma strtoll_ok s n rest : numeral s n -> ends rest -> strtoll (s ++ rest) = (clip (-9223372036854775808) 9223372036854775807 n, rest).
Proof.
  intros H E. destruct (subject_ok s n rest H E) as (ng & v & S & <- & Nn). unfold strtoll. rewrite S. f_equal. unfold clip, signed, LLONG_MAX, LLONG_MIN. set (w := if ng then - v else v). destruct (Z.gtb_spec w 9223372036854775807); [lia|]. destruct (Z.ltb_spec w (-9223372036854775808)); lia.
Qed.
Lemma strtoull_ok s n rest : numeral s n -> ends rest -> strtoull (s ++ rest) = (if Z.abs n <? 2 ^ 64 then n mod 2 ^ 64 else 2 ^ 64 - 1, rest).
Proof.
  intros H E. destruct (subject_ok s n rest H E) as (ng & v & S & <- & Nn). unfold strtoull. rewrite S. f_equal. unfold signed, ULLONG_MAX, u64. change (2 ^ 64) with 18446744073709551616. destruct (Z.gtb_spec v 18446744073709551615) as [G|G].
  - destruct (Z.ltb_spec (Z.abs (if ng then - v else v)) 18446744073709551616); [destruct ng; lia|lia].
  - destruct (Z.ltb_spec (Z.abs (if ng then - v else v)) 18446744073709551616); [|destruct ng; lia]. destruct ng; [reflexivity|]. rewrite Z.mod_small by lia. reflexivity.
Qed.
Lemma ends_nil : ends []. Proof. exact I. Qed.
Lemma strto_inv s : (subject s = None /\ strtoll s = (0, s) /\ strtoull s = (0, s)) \/
  exists a rest n, s = a ++ rest /\ a <> [] /\ numeral a n /\ snd (strtoll s) = rest /\ snd (strtoull s) = rest /\
    fst (strtoll s) = clip (-9223372036854775808) 9223372036854775807 n /\ fst (strtoull s) = (if Z.abs n <? 2 ^ 64 then n mod 2 ^ 64 else 2 ^ 64 - 1).
Proof.
  destruct (subject s) as [[[ng v] rest]|] eqn:S; [right|left; unfold strtoll, strtoull; rewrite S; auto].
  destruct (subject_inv s ng v rest S) as (a & -> & N & Nn & Ne). exists a, rest, (signed (ng, v)). split; [reflexivity|]. split; [exact Ne|]. split; [exact N|].
  pose proof (strtoll_ok a _ [] N I) as L. pose proof (strtoull_ok a _ [] N I) as U. rewrite app_nil_r in L, U. destruct (subject_ok a _ [] N I) as (ng' & v' & S' & E' & Nn'). rewrite app_nil_r in S'.
  assert (ng' = ng /\ v' = v \/ (v' = 0 /\ v = 0)) as Q by (unfold signed in E'; destruct ng, ng'; lia).
  unfold strtoll, strtoull in *. rewrite S. rewrite S' in L, U. cbn [fst snd]. split; [reflexivity|]. split; [reflexivity|].
  destruct Q as [(-> & ->)|(-> & ->)].
  - split; [exact (f_equal fst L)|exact (f_equal fst U)].
  - cbn [signed] in *. destruct ng; split; reflexivity.
Qed.

(** Numbers as they are written. *)
Lemma letter_table d : 0 <= d < 16 -> In (letter d, d) table.
Proof.
  intros H. pose proof (all_below 16 (fun d => existsb (fun p => (fst p =? letter d) && (snd p =? d)) table) eq_refl d H) as E. cbv beta in E. apply existsb_exists in E. destruct E as ((c & e) & I & E). apply andb_true_iff in E. rewrite !Z.eqb_eq in E. cbn [fst snd] in E. destruct E as [<- <-]. exact I.
Qed.
Lemma write_denotes fuel : forall base n, 2 <= base <= 16 -> 0 <= n < 2 ^ Z.of_nat fuel -> denotes base (write fuel base n) n.
Proof.
  induction fuel as [|fuel IH]; intros base n B H.
  - cbn in H. assert (n = 0) as -> by lia. constructor.
  - cbn [write]. destruct (Z.eqb_spec n 0) as [-> |N]; [constructor|]. rewrite (Z.div_mod n base) at 3 by lia. rewrite Z.mul_comm. pose proof (Z.mod_pos_bound n base ltac:(lia)). apply denotes_snoc; [|apply letter_table; lia|lia].
    apply IH; [exact B|]. rewrite Nat2Z.inj_succ, Z.pow_succ_r in H by lia. split; [apply Z.div_pos; lia|]. apply Z.div_lt_upper_bound; [lia|]. nia.
Qed.
Lemma write_hd fuel : forall base n, 2 <= base <= 10 -> 0 < n < 2 ^ Z.of_nat fuel -> exists c t, write fuel base n = c :: t /\ c <> 48.
Proof.
  induction fuel as [|fuel IH]; intros base n B H; [cbn in H; lia|]. cbn [write]. destruct (Z.eqb_spec n 0); [lia|]. rewrite Nat2Z.inj_succ, Z.pow_succ_r in H by lia.
  destruct (Z.eq_dec (n / base) 0) as [E|E].
  - rewrite E. assert (write fuel base 0 = []) as -> by (destruct fuel; reflexivity). cbn [app]. exists (letter (n mod base)), []. split; [reflexivity|]. assert (n mod base = n) as -> by (apply Z.mod_small; apply Z.div_small_iff in E; lia). assert (n < base) by (apply Z.div_small_iff in E; lia).
    pose proof (all_below 10 (fun d => (d =? 0) || negb (letter d =? 48)) eq_refl n ltac:(lia)) as A. cbv beta in A. destruct (Z.eqb_spec n 0); [lia|]. cbn [orb] in A. apply negb_true_iff, Z.eqb_neq in A. exact A.
  - assert (0 <= n / base) by (apply Z.div_pos; lia). destruct (IH base (n / base) B) as (c & t & -> & N); [split; [lia|]; apply Z.div_lt_upper_bound; [lia|nia]|]. exists c, (t ++ [letter (n mod base)]). split; [reflexivity|exact N].
Qed.
Lemma dec_body n : 0 <= n < 2 ^ 64 -> body (dec n) n.
Proof.
  intros H. unfold dec. destruct (Z.eqb_spec n 0) as [-> |N].
  - apply body_oct; [apply (denotes_snoc 8 [] 0 48 0); [constructor|left; reflexivity|lia]|reflexivity].
  - destruct (write_hd 64 10 n) as (c & t & E & Nc); [lia|cbn; lia|]. apply body_dec; [apply write_denotes; [lia|cbn; lia]|rewrite E; discriminate|rewrite E; exact Nc].
Qed.
Lemma hex_body n : 0 <= n < 2 ^ 64 -> body (hex n) n.
Proof.
  intros H. unfold hex. cbn [app]. destruct (Z.eqb_spec n 0) as [-> |N].
  - apply body_hex; [apply (denotes_snoc 16 [] 0 48 0); [constructor|left; reflexivity|lia]|discriminate|left; reflexivity].
  - apply body_hex; [apply write_denotes; [lia|cbn; lia]| |left; reflexivity]. cbn [write]. destruct (Z.eqb_spec n 0); [contradiction|]. intros X. apply app_eq_nil in X. destruct X; discriminate.
Qed.
Lemma denotes_zero base l n : 0 < base -> denotes base l n -> denotes base (48 :: l) n.
Proof.
  intros B. induction 1 as [|l n c d D IH I L].
  - apply (denotes_snoc base [] 0 48 0); [constructor|left; reflexivity|exact B].
  - change (48 :: l ++ [c]) with ((48 :: l) ++ [c]). apply denotes_snoc; assumption.
Qed.
Lemma oct_body n : 0 <= n < 2 ^ 64 -> body (oct n) n.
Proof.
  intros H. unfold oct. apply body_oct; [|reflexivity]. apply denotes_zero; [lia|]. apply write_denotes; [lia|cbn; lia].
Qed.
