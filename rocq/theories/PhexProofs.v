From Coq Require Import ZArith List Bool Lia.
From Verif Require Import CInt CUtil EscapeModel EscapeSpec EscapeProofs PhexModel PhexSpec.
Import ListNotations.
Local Open Scope Z_scope.

Lemma u64_range x : is_u64 (u64 x).
Proof. unfold is_u64, u64. apply Z.mod_pos_bound. lia. Qed.
Lemma u64_id x : is_u64 x -> u64 x = x.
Proof. unfold is_u64, u64. apply Z.mod_small. Qed.

(** The token as a function. *)
Definition plainb (esc : bool) (c : Z) : bool :=
  (32 <=? c) && (c <=? 126) && negb (c =? 92) && negb (esc && ((c =? 34) || (c =? 39) || (c =? 63))).
Definition tok (esc hex : bool) (c : Z) : list Z :=
  if hex then if plainb esc c then [c] else [92; 120; hexchar (c / 16); hexchar (c mod 16)]
  else escape (quotes esc) c.

Lemma plainb_plain esc c : plainb esc c = true <-> plain esc c.
Proof.
  unfold plainb, plain, quotes. rewrite !andb_true_iff, !negb_true_iff, !Z.leb_le, Z.eqb_neq.
  destruct esc; cbn [andb In].
  - rewrite !orb_false_iff, !Z.eqb_neq. intuition.
  - intuition.
Qed.

Lemma token_tok esc hex c t : token esc hex c t <-> t = tok esc hex c.
Proof.
  unfold token, tok. destruct hex; [|tauto]. destruct (plainb esc c) eqn:E.
  - apply plainb_plain in E. tauto.
  - assert (~ plain esc c) by (intros Q; apply plainb_plain in Q; congruence). tauto.
Qed.

Lemma tokens_tok esc hex l ts : Forall2 (token esc hex) l ts <-> ts = map (tok esc hex) l.
Proof.
  revert ts. induction l as [|c l IH]; intros ts; split; intros H.
  - inversion H. reflexivity.
  - subst. constructor.
  - destruct ts as [|t ts]; inversion H; subst. apply token_tok in H3. apply IH in H5. cbn. congruence.
  - subst. cbn. constructor; [apply token_tok; reflexivity|apply IH; reflexivity].
Qed.

(** One emission. *)
Definition zlen (t : list Z) : Z := Z.of_nat (length t).

Lemma emit_shape length nl esc hex ch s : is_u8 ch ->
  emit length nl esc hex ch s =
    if (ch =? 10) && nl then limit length (-1) s
    else after length (zlen (tok esc hex ch)) s (tok esc hex ch).
Proof.
  intros Hc.
  assert (C : exists n, ch = Z.of_nat n /\ (n < 256)%nat) by (exists (Z.to_nat ch); unfold is_u8 in Hc; lia).
  destruct C as (n & -> & Hn).
  do 256 (destruct n as [|n]; [destruct nl, esc, hex; reflexivity|]). lia.
Qed.

Lemma tok_len esc hex c : 1 <= zlen (tok esc hex c) <= 4.
Proof.
  unfold zlen, tok, escape. destruct hex; [destruct (plainb esc c); cbn; lia|].
  destruct (find _ _) as [[? ?]|]; [cbn; lia|]. destruct (existsb _ _); [cbn; lia|]. destruct (_ && _); cbn; lia.
Qed.

Lemma quotes_printable esc y : In y (quotes esc) -> 32 <= y <= 126.
Proof. unfold quotes. destruct esc; cbn; [|tauto]. intros [<-|[<-|[<-|[]]]]; lia. Qed.

Lemma tok_printable esc hex c x : is_u8 c -> In x (tok esc hex c) -> 32 <= x <= 126.
Proof.
  intros Hc. unfold tok. destruct hex.
  - destruct (plainb esc c) eqn:P.
    + apply plainb_plain in P. destruct P as (P & _). intros [<-|[]]. exact P.
    + assert (0 <= c / 16 < 16) by (red in Hc; split; [apply Z.div_pos; lia|apply Z.div_lt_upper_bound; lia]).
      pose proof (Z.mod_pos_bound c 16 ltac:(lia)). unfold hexchar.
      intros [<-|[<-|[<-|[<-|[]]]]]; try lia; [destruct (Z.ltb_spec (c / 16) 10)|destruct (Z.ltb_spec (c mod 16) 10)]; lia.
  - apply escape_printable; [exact Hc|apply quotes_printable].
Qed.

Lemma tok_no_newline esc hex c : is_u8 c -> ~ In 10 (tok esc hex c).
Proof. intros Hc Q. pose proof (tok_printable _ _ _ _ Hc Q). lia. Qed.

(** Newlines removed. *)
Lemma wn_app a b : without_newlines (a ++ b) = without_newlines a ++ without_newlines b.
Proof. apply filter_app. Qed.
Lemma wn_id a : ~ In 10 a -> without_newlines a = a.
Proof.
  induction a as [|c a IH]; intros H; [reflexivity|]. cbn. destruct (Z.eqb_spec c 10) as [->|N]; [destruct H; left; reflexivity|].
  cbn. f_equal. apply IH. intros Q. apply H. right. exact Q.
Qed.
Lemma limit_wn length i s : without_newlines (fst (limit length i s)) = [].
Proof. unfold limit. repeat (destruct (_ : bool); try reflexivity). Qed.

Lemma emits_text length nl esc hex l : octets l -> forall s,
  without_newlines (fst (emits length nl esc hex l s)) =
    concat (map (tok esc hex) (if nl then without_newlines l else l)).
Proof.
  induction l as [|c l IH]; intros Ho s; [destruct nl; reflexivity|].
  apply Forall_cons_iff in Ho. destruct Ho as [Hc Ho]. specialize (IH Ho). cbn [emits]. rewrite emit_shape by exact Hc.
  destruct ((c =? 10) && nl) eqn:E.
  - apply andb_true_iff in E. destruct E as (E & ->). destruct (limit length (-1) s) as [o s1] eqn:L.
    pose proof (limit_wn length (-1) s) as W. rewrite L in W. cbn [fst] in W.
    specialize (IH s1). destruct (emits length true esc hex l s1) as [o' s2]. cbn [fst] in *.
    rewrite wn_app, W, IH. cbn. rewrite E. reflexivity.
  - unfold after. destruct (limit length (zlen (tok esc hex c)) s) as [o s1] eqn:L.
    pose proof (limit_wn length (zlen (tok esc hex c)) s) as W. rewrite L in W. cbn [fst] in W.
    specialize (IH s1). destruct (emits length nl esc hex l s1) as [o' s2]. cbn [fst] in *.
    rewrite !wn_app, W, IH, (wn_id (tok esc hex c)) by (apply tok_no_newline; exact Hc).
    destruct nl; [|reflexivity]. cbn. rewrite andb_true_r in E. rewrite E. reflexivity.
Qed.

(** Nothing is broken with no limit. *)
Lemma emits_unlimited length esc hex l : length = 0 \/ length = 2 ^ 64 - 1 -> octets l -> forall s,
  fst (emits length false esc hex l s) = concat (map (tok esc hex) l).
Proof.
  intros HL. induction l as [|c l IH]; intros Ho s; [reflexivity|].
  apply Forall_cons_iff in Ho. destruct Ho as [Hc Ho]. specialize (IH Ho). cbn [emits]. rewrite emit_shape by exact Hc.
  rewrite andb_false_r. unfold after.
  assert (L : fst (limit length (zlen (tok esc hex c)) s) = []).
  { unfold limit. destruct HL as [->| ->]; [reflexivity|].
    pose proof (tok_len esc hex c). destruct (Z.ltb_spec (zlen (tok esc hex c)) 0); [lia|].
    destruct (Z.eqb_spec (zlen (tok esc hex c)) 0); [lia|]. cbn [andb].
    pose proof (u64_range (current s + zlen (tok esc hex c))) as R. red in R.
    destruct (Z.ltb_spec (2 ^ 64 - 1) (u64 (current s + zlen (tok esc hex c)))); [lia|]. reflexivity. }
  destruct (limit length (zlen (tok esc hex c)) s) as [o s1]. cbn [fst] in L. subst o. specialize (IH s1).
  destruct (emits length false esc hex l s1) as [o' s2]. cbn [fst] in *. rewrite IH. reflexivity.
Qed.

(** Setting in lines. *)
Lemma set_cons l rest : rest <> [] -> set (l :: rest) = concat l ++ 10 :: set rest.
Proof. destruct rest; [congruence|reflexivity]. Qed.

Lemma limit_break length i s : 0 < length -> 0 < i -> 0 <= current s -> current s + i < 2 ^ 64 ->
  limit length i s = if length <? current s + i then ([10], mkstate i true) else ([], mkstate (current s + i) false).
Proof.
  intros H1 H2 H3 H4. unfold limit. destruct (Z.eqb_spec length 0); [lia|]. destruct (Z.ltb_spec i 0); [lia|].
  destruct (Z.eqb_spec i 0); [lia|]. cbn [andb]. rewrite !u64_id by (red; lia). reflexivity.
Qed.

Lemma width_snoc cur t : width (cur ++ [t]) = width cur + zlen t.
Proof. unfold width, zlen. rewrite concat_app, app_length. cbn. rewrite app_nil_r. lia. Qed.

Lemma emits_lines length esc hex l : 4 <= length < 2 ^ 64 - 4 -> octets l -> forall s cur,
  current s = width cur -> width cur <= length ->
  exists first rest, concat ((cur ++ first) :: rest) = cur ++ map (tok esc hex) l /\
    fst (emits length false esc hex l s) =
      concat first ++ match rest with [] => [] | _ => 10 :: set rest end /\
    filled length ((cur ++ first) :: rest).
Proof.
  intros HL. induction l as [|c l IH]; intros Ho s cur Hs Hw.
  - exists [], []. split; [cbn; rewrite !app_nil_r; reflexivity|]. split; [reflexivity|]. rewrite app_nil_r. cbn. auto.
  - apply Forall_cons_iff in Ho. destruct Ho as [Hc Ho]. cbn [emits map]. rewrite emit_shape by exact Hc.
    rewrite andb_false_r. unfold after. pose proof (tok_len esc hex c) as Tl. set (t := tok esc hex c) in *.
    assert (0 <= width cur) by (unfold width; lia).
    rewrite limit_break by lia. rewrite Hs. destruct (Z.ltb_spec length (width cur + zlen t)) as [Br|Br].
    + assert (W1 : width [t] = zlen t) by (unfold width; cbn; rewrite app_nil_r; reflexivity).
      destruct (IH Ho (mkstate (zlen t) true) [t] (eq_sym W1) ltac:(lia)) as (first & rest & E1 & E2 & E3).
      exists [], (([t] ++ first) :: rest). split; [|split].
      * rewrite app_nil_r. cbn [concat app]. f_equal. exact E1.
      * destruct (emits length false esc hex l (mkstate (zlen t) true)) as [o' s2]. cbn [fst] in *. rewrite E2.
        cbn [concat app]. destruct rest as [|r rest]; [cbn; rewrite !app_nil_r; reflexivity|].
        rewrite (set_cons (t :: first) (r :: rest)) by (intros Q; discriminate Q). cbn [app concat]. rewrite <- app_assoc. reflexivity.
      * rewrite app_nil_r. cbn [filled app]. split; [exact Hw|]. split; [unfold zlen in Br; exact Br|exact E3].
    + destruct (IH Ho (mkstate (width cur + zlen t) false) (cur ++ [t])) as (first & rest & E1 & E2 & E3).
      * rewrite width_snoc. reflexivity.
      * rewrite width_snoc. lia.
      * exists (t :: first), rest. rewrite <- app_assoc in E1, E3. cbn [app] in E1, E3. split; [|split].
        -- rewrite E1, <- app_assoc. reflexivity.
        -- destruct (emits length false esc hex l (mkstate (width cur + zlen t) false)) as [o' s2]. cbn [fst] in *. rewrite E2.
           cbn [concat app]. rewrite app_assoc. reflexivity.
        -- exact E3.
Qed.

(** With newlines passed on: the length of the last line of a text. *)
Fixpoint tail_len (s : list Z) (n : Z) : Z :=
  match s with [] => n | c :: s => tail_len s (if c =? 10 then 0 else n + 1) end.
(** The largest length of a line. *)
Fixpoint max_len (s : list Z) (n : Z) : Z :=
  match s with [] => n | c :: s => if c =? 10 then Z.max n (max_len s 0) else max_len s (n + 1) end.

Lemma tail_len_app a b n : tail_len (a ++ b) n = tail_len b (tail_len a n).
Proof. revert n. induction a as [|c a IH]; intros n; [reflexivity|]. apply IH. Qed.
Lemma max_len_ge s : forall n, n <= max_len s n.
Proof. induction s as [|c s IH]; intros n; cbn; [lia|]. destruct (c =? 10); [lia|]. specialize (IH (n + 1)). lia. Qed.
Lemma max_len_app a : forall b n M, 0 <= n -> max_len a n <= M -> max_len b (tail_len a n) <= M -> max_len (a ++ b) n <= M.
Proof.
  induction a as [|c a IH]; intros b n M Hn H1 H2; [exact H2|]. cbn in *. destruct (c =? 10).
  - apply Z.max_lub; [lia|]. apply IH; [lia|lia|exact H2].
  - apply IH; [lia|exact H1|exact H2].
Qed.
Lemma plain_tail t : ~ In 10 t -> forall n, tail_len t n = n + zlen t.
Proof.
  induction t as [|c t IH]; intros H n; [unfold zlen; cbn; lia|]. cbn [tail_len]. destruct (Z.eqb_spec c 10) as [->|]; [destruct H; left; reflexivity|].
  rewrite IH; [unfold zlen; cbn [length]; lia|]. intros Q. apply H. right. exact Q.
Qed.
Lemma plain_max t : ~ In 10 t -> forall n, max_len t n = n + zlen t.
Proof.
  induction t as [|c t IH]; intros H n; [unfold zlen; cbn; lia|]. cbn [max_len]. destruct (Z.eqb_spec c 10) as [->|]; [destruct H; left; reflexivity|].
  rewrite IH; [unfold zlen; cbn [length]; lia|]. intros Q. apply H. right. exact Q.
Qed.

(** The invariant: [n] is the length of the line being printed. *)
Definition inv (length : Z) (s : state) (n : Z) : Prop :=
  0 <= n /\
  (if ended s then (0 <= current s <= length /\ n <= current s) \/ (current s = 2 ^ 64 - 1 /\ n = 0)
   else 0 <= current s <= length /\ n <= current s + 1).

Lemma limit_newline_inv length s n : 4 <= length < 2 ^ 64 - 4 -> inv length s n ->
  let '(o, s') := limit length (-1) s in
  max_len o n <= length + 1 /\ inv length s' (tail_len o n).
Proof.
  intros HL (Hn & I). unfold limit. destruct (Z.eqb_spec length 0); [lia|]. change (-1 <? 0) with true. change (-1 =? 0) with false. cbn [andb].
  destruct s as [cu en]. cbn [current ended] in *. destruct en; cbn [negb].
  - destruct I as [[I1 I2]|[-> ->]].
    + destruct (Z.eqb_spec cu 0) as [->|Ncu].
      * change (u64 (0 + -1)) with (2 ^ 64 - 1). destruct (Z.ltb_spec length (2 ^ 64 - 1)); [|lia].
        assert (n = 0) by lia. subst n. cbn. split; [lia|]. unfold inv. cbn [ended current]. split; [lia|]. right. split; reflexivity.
      * rewrite u64_id by (red; lia). destruct (Z.ltb_spec length (cu + -1)); [lia|]. cbn [max_len tail_len].
        split; [lia|]. unfold inv. cbn [ended current]. lia.
    + change (u64 (2 ^ 64 - 1 + -1)) with (2 ^ 64 - 2). destruct (Z.ltb_spec length (2 ^ 64 - 2)); [|lia].
      cbn. split; [lia|]. unfold inv. cbn [ended current]. split; [lia|]. right. split; reflexivity.
  - cbn. split; [lia|]. unfold inv. cbn [ended current]. lia.
Qed.

Lemma limit_token_inv length s n t : 4 <= length < 2 ^ 64 - 4 -> inv length s n -> ~ In 10 t -> 1 <= zlen t <= 4 ->
  let '(o, s') := after length (zlen t) s t in
  max_len o n <= length + 1 /\ inv length s' (tail_len o n).
Proof.
  intros HL (Hn & I) Ht Hl. unfold after, limit. destruct (Z.eqb_spec length 0); [lia|].
  destruct (Z.ltb_spec (zlen t) 0); [lia|]. destruct (Z.eqb_spec (zlen t) 0); [lia|]. cbn [andb].
  destruct s as [cu en]. cbn [current ended] in *.
  assert (G : (cu = 2 ^ 64 - 1 /\ n = 0) \/ (0 <= cu <= length /\ n <= cu + 1)) by (destruct en; [destruct I; [right|left]; lia|right; lia]).
  destruct G as [[-> ->]|[G1 G2]].
  - replace (u64 (2 ^ 64 - 1 + zlen t)) with (zlen t - 1).
    2: { unfold u64. replace (2 ^ 64 - 1 + zlen t) with (zlen t - 1 + 1 * 2 ^ 64) by lia. rewrite Z.mod_add by lia. symmetry. apply Z.mod_small. lia. }
    destruct (Z.ltb_spec length (zlen t - 1)); [lia|]. cbn [app]. rewrite plain_max, plain_tail by exact Ht. split; [lia|].
    unfold inv. cbn [ended current]. lia.
  - rewrite !u64_id by (red; lia). destruct (Z.ltb_spec length (cu + zlen t)).
    + cbn [app max_len tail_len]. change (10 =? 10) with true. cbv iota. rewrite plain_max, plain_tail by exact Ht.
      split; [lia|]. unfold inv. cbn [ended current]. lia.
    + cbn [app]. rewrite plain_max, plain_tail by exact Ht. split; [lia|]. unfold inv. cbn [ended current]. lia.
Qed.

Lemma emits_max length nl esc hex l : 4 <= length < 2 ^ 64 - 4 -> octets l -> forall s n, inv length s n ->
  max_len (fst (emits length nl esc hex l s)) n <= length + 1.
Proof.
  intros HL. induction l as [|c l IH]; intros Ho s n I.
  - cbn. destruct I as (_ & I). destruct (ended s); [destruct I as [I|I]|]; lia.
  - apply Forall_cons_iff in Ho. destruct Ho as [Hc Ho]. cbn [emits]. rewrite emit_shape by exact Hc.
    assert (G : let '(o, s') := (if (c =? 10) && nl then limit length (-1) s else after length (zlen (tok esc hex c)) s (tok esc hex c)) in
      max_len o n <= length + 1 /\ inv length s' (tail_len o n)).
    { destruct ((c =? 10) && nl); [apply limit_newline_inv; assumption|].
      apply limit_token_inv; [assumption|assumption|apply tok_no_newline; exact Hc|apply tok_len]. }
    destruct (if _ : bool then _ else _) as [o s1]. destruct G as (G1 & G2). specialize (IH Ho s1 _ G2).
    destruct (emits length nl esc hex l s1) as [o' s2]. cbn [fst] in *. apply max_len_app; [apply I|exact G1|exact IH].
Qed.

Lemma has_line_max s line : has_line s line -> zlen line <= max_len s 0.
Proof.
  intros (N & a & b & -> & A & B).
  assert (T : forall a n, 0 <= n -> 0 <= tail_len a n) by (clear; induction a as [|c a IH]; intros n Hn; cbn; [lia|]; apply IH; destruct (c =? 10); lia).
  assert (M : forall a r n, 0 <= n -> max_len r (tail_len a n) <= max_len (a ++ r) n).
  { clear -T. induction a as [|c a IH]; intros r n Hn; [cbn; lia|]. cbn. destruct (c =? 10).
    - pose proof (IH r 0 ltac:(lia)). lia.
    - apply IH. lia. }
  assert (TA : tail_len a 0 = 0).
  { destruct A as [->|(a' & ->)]; [reflexivity|]. rewrite tail_len_app. reflexivity. }
  pose proof (M a (line ++ b) 0 ltac:(lia)) as Q. rewrite TA in Q.
  assert (zlen line <= max_len (line ++ b) 0); [|lia].
  pose proof (M line b 0 ltac:(lia)) as Q2. rewrite plain_tail in Q2 by exact N.
  pose proof (max_len_ge b (0 + zlen line)). lia.
Qed.

(** Reading it back. *)
Lemma tok_hex_step esc c t : is_u8 c -> step (tok esc true c ++ t) t [c].
Proof.
  intros Hc. unfold tok. destruct (plainb esc c) eqn:P.
  - apply plainb_plain in P. apply Plain. apply P.
  - cbn [app]. replace [c] with [16 * (c / 16) + c mod 16] by (f_equal; pose proof (Z.div_mod c 16); lia).
    apply Hex2; apply hexchar_val; [|apply Z.mod_pos_bound; lia].
    red in Hc. split; [apply Z.div_pos; lia|apply Z.div_lt_upper_bound; lia].
Qed.

Lemma toks_hex_reads esc l : octets l -> reads (concat (map (tok esc true) l)) l.
Proof.
  induction l as [|c l IH]; intros Ho; [constructor|]. apply Forall_cons_iff in Ho. destruct Ho as [Hc Ho].
  cbn [map concat]. change (c :: l) with ([c] ++ l). econstructor; [apply tok_hex_step; exact Hc|apply IH, Ho].
Qed.

Lemma toks_expansion esc l : concat (map (tok esc false) l) = expansion (Some (quotes esc)) l.
Proof. unfold expansion. rewrite flat_map_concat_map. reflexivity. Qed.

Lemma quotes_safe esc : special_safe (quotes esc).
Proof.
  intros c I. unfold quotes in I. destruct esc; [|destruct I]. unfold octal.
  assert (c = 34 \/ c = 39 \/ c = 63) by (cbn in I; intuition). clear I.
  split; [lia|]. split; [lia|]. cbn. intros x Q. repeat (destruct Q as [Q|Q]; [injection Q as Q1 Q2; lia|]). destruct Q.
Qed.

Lemma toks_text esc hex l : octets l -> text (concat (map (tok esc hex) l)).
Proof.
  intros Ho Q. apply in_concat in Q. destruct Q as (t & I1 & I2). apply in_map_iff in I1. destruct I1 as (c & <- & I1).
  unfold octets in Ho. rewrite Forall_forall in Ho. pose proof (tok_printable _ _ _ _ (Ho c I1) I2). lia.
Qed.

Lemma toks_collapse esc hex l size : octets l -> (hex = true \/ nul_safe l) -> Z.of_nat (length l) < size ->
  collapse (concat (map (tok esc hex) l) ++ [0]) size = Some (l ++ [0]).
Proof.
  intros Ho Hn Hs. rewrite (collapse_spec _ l); [rewrite firstn_all2 by lia; reflexivity|apply toks_text, Ho| |lia].
  destruct hex; [apply toks_hex_reads, Ho|]. destruct Hn as [Hn|Hn]; [discriminate|].
  rewrite toks_expansion. apply expansion_reads; [apply quotes_safe|exact Ho|exact Hn].
Qed.
