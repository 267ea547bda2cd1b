From Coq Require Import ZArith List Bool Lia Arith.
From Verif Require Import CInt CUtil IpModel EndpointModel EndpointSpec EndpointProofs.
Import ListNotations.
Local Open Scope Z_scope.

(** * Characters *)

Ltac chars := unfold skipped, sixly, hostly, alphanumeric, digit, letter, is_digit, is_letter, is_hex, TAB, SPACE, HYPHEN, PERIOD, SLASH, COLON, OPENS, CLOSES in *.
Lemma digit_spec x : is_digit x = true <-> digit x. Proof. chars. rewrite andb_true_iff, !Z.leb_le. lia. Qed.
Lemma letter_spec x : is_letter x = true <-> letter x. Proof. chars. rewrite orb_true_iff, !andb_true_iff, !Z.leb_le. lia. Qed.
Lemma hex_spec x : is_hex x = true <-> (97 <= x <= 102 \/ 65 <= x <= 70). Proof. chars. rewrite orb_true_iff, !andb_true_iff, !Z.leb_le. lia. Qed.
Lemma digit_false x : is_digit x = false <-> ~ digit x. Proof. rewrite <- digit_spec, not_true_iff_false. reflexivity. Qed.
Lemma letter_false x : is_letter x = false <-> ~ letter x. Proof. rewrite <- letter_spec, not_true_iff_false. reflexivity. Qed.
Lemma hex_false x : is_hex x = false <-> ~ (97 <= x <= 102 \/ 65 <= x <= 70). Proof. rewrite <- hex_spec, not_true_iff_false. reflexivity. Qed.
(** Decide all tests of [x]. *)
Ltac tests := repeat match goal with
  | |- context[?x =? ?y] => destruct (Z.eqb_spec x y)
  | |- context[is_digit ?x] => let H := fresh "D" in destruct (is_digit x) eqn:H; [apply digit_spec in H|apply digit_false in H]
  | |- context[is_letter ?x] => let H := fresh "L" in destruct (is_letter x) eqn:H; [apply letter_spec in H|apply letter_false in H]
  | |- context[is_hex ?x] => let H := fresh "H" in destruct (is_hex x) eqn:H; [apply hex_spec in H|apply hex_false in H]
  end; cbn [orb].
Ltac bad := exfalso; chars; lia.

(** * After a colon, after an address *)

Lemma scan_port : forall l w c d, ~ In 0 l -> (scan S_PORT w c l = Some d <-> Forall digit l /\ d = with_port c (w ++ l)).
Proof.
  induction l as [|x l IH]; intros w c d N.
  - cbn. rewrite app_nil_r. split; [intros E; split; [constructor|congruence]|intros (_ & ->); reflexivity].
  - assert (x <> 0) by (intros ->; apply N; left; reflexivity). assert (NL : ~ In 0 l) by (intros I; apply N; right; exact I). cbn [scan a_turn]. tests; unfold go; try bad; try contradiction.
    + rewrite (IH _ _ _ NL), <- app_assoc. cbn [app]. split; [intros (F & ->); split; [constructor; assumption|reflexivity]|intros (F & ->); split; [inversion F; assumption|reflexivity]].
    + split; [discriminate|]. intros (F & _). inversion F; contradiction.
Qed.
Lemma scan_service : forall l w c d, ~ In 0 l -> (scan S_SERVICE w c l = Some d <-> Forall alphanumeric l /\ d = with_service c (w ++ l)).
Proof.
  induction l as [|x l IH]; intros w c d N.
  - cbn. rewrite app_nil_r. split; [intros E; split; [constructor|congruence]|intros (_ & ->); reflexivity].
  - assert (x <> 0) by (intros ->; apply N; left; reflexivity). assert (NL : ~ In 0 l) by (intros I; apply N; right; exact I). cbn [scan a_turn]. tests; unfold go; try bad; try contradiction.
    1, 2: rewrite (IH _ _ _ NL), <- app_assoc; cbn [app]; (split; [intros (F & ->); split; [constructor; [unfold alphanumeric; auto|assumption]|reflexivity]|intros (F & ->); split; [inversion F; assumption|reflexivity]]).
    split; [discriminate|]. intros (F & _). inversion F as [|? ? [|] ?]; contradiction.
Qed.
Lemma scan_colon l w c d : ~ In 0 l -> (scan S_COLON w c l = Some d <-> follows c l d).
Proof.
  intros N. destruct l as [|x l].
  - cbn. split; [intros E; injection E as <-; constructor|]. intros F. inversion F as [|w0 (Q & _)|w0 (c0 & l0 & Q & _)]; [reflexivity|congruence|discriminate Q].
  - assert (x <> 0) by (intros ->; apply N; left; reflexivity). assert (NL : ~ In 0 l) by (intros I; apply N; right; exact I). cbn [scan a_turn]. tests; unfold go; try bad; try contradiction.
    + rewrite (scan_port _ _ _ _ NL). cbn [app]. split.
      * intros (F & ->). apply F_port. split; [discriminate|constructor; assumption].
      * intros F. inversion F as [|w0 (_ & Q)|w0 (c0 & l0 & Q & Q1 & _)]; subst; [split; [inversion Q; assumption|reflexivity]|]. injection Q as <- <-. bad.
    + rewrite (scan_service _ _ _ _ NL). cbn [app]. split.
      * intros (F & ->). apply F_service. exists x, l. auto.
      * intros F. inversion F as [|w0 (_ & Q)|w0 (c0 & l0 & Q & _ & Q2)]; subst; [inversion Q; contradiction|]. injection Q as <- <-. auto.
    + split; [discriminate|]. intros F. inversion F as [|w0 (_ & Q)|w0 (c0 & l0 & Q & Q1 & _)]; subst; [inversion Q; contradiction|]. injection Q as <- <-. contradiction.
Qed.
Lemma scan_next l w c d : ~ In 0 l -> (scan S_NEXT w c l = Some d <-> ends c l d).
Proof.
  intros N. destruct l as [|x l].
  - cbn. split; [intros E; injection E as <-; constructor|]. intros F. inversion F. reflexivity.
  - assert (x <> 0) by (intros ->; apply N; left; reflexivity). assert (NL : ~ In 0 l) by (intros I; apply N; right; exact I). cbn [scan a_turn]. destruct (Z.eqb_spec x COLON) as [->|NC]; [|destruct (Z.eqb_spec x 0); [contradiction|]].
    + unfold go. rewrite (scan_colon _ _ _ _ NL). split; [apply E_colon|]. intros F. inversion F. assumption.
    + split; [discriminate|]. intros F. inversion F. congruence.
Qed.
Lemma scan_path : forall l w c, ~ In 0 l -> scan S_PATH w c l = Some (only_path (w ++ l)).
Proof.
  induction l as [|x l IH]; intros w c N; [cbn; rewrite app_nil_r; reflexivity|]. cbn [scan a_turn]. destruct (Z.eqb_spec x 0) as [->|]; [destruct N; left; reflexivity|]. unfold go. rewrite IH by (intros I; apply N; right; exact I). rewrite <- app_assoc. reflexivity.
Qed.
Lemma scan_ipv6 : forall l w c d, ~ In 0 l -> (scan S_IPV6 w c l = Some d <-> exists v k, l = v ++ CLOSES :: k /\ Forall sixly v /\ ends (only_ipv6 (w ++ v)) k d).
Proof.
  induction l as [|x l IH]; intros w c d N.
  - cbn. split; [discriminate|]. intros (v & k & E & _). destruct v; discriminate E.
  - assert (x <> 0) by (intros ->; apply N; left; reflexivity). assert (NL : ~ In 0 l) by (intros I; apply N; right; exact I).
    assert (CC : forall w', (scan S_IPV6 w' c l = Some d <-> exists v k, l = v ++ CLOSES :: k /\ Forall sixly v /\ ends (only_ipv6 (w' ++ v)) k d)) by (intros w'; apply IH, NL).
    assert (ADV : sixly x -> x <> CLOSES -> (scan S_IPV6 (w ++ [x]) c l = Some d <-> exists v k, x :: l = v ++ CLOSES :: k /\ Forall sixly v /\ ends (only_ipv6 (w ++ v)) k d)).
    { intros SX NC. rewrite CC. split.
      - intros (v & k & -> & F & E). exists (x :: v), k. rewrite <- app_assoc in E. split; [reflexivity|]. split; [constructor; assumption|exact E].
      - intros (v & k & Q & F & E). destruct v as [|y v]; [injection Q as -> _; contradiction|]. injection Q as <- ->. exists v, k. inversion F; subst. rewrite <- app_assoc. auto. }
    cbn [scan a_turn]. tests; unfold go; try (apply ADV; [chars; lia|assumption]).
    + rewrite (scan_next _ _ _ _ NL). subst x. split.
      * intros E. exists [], l. rewrite app_nil_r. split; [reflexivity|]. split; [constructor|exact E].
      * intros (v & k & Q & F & E). destruct v as [|y v]; [injection Q as ->; rewrite app_nil_r in E; exact E|]. injection Q as <- ->. inversion F; subst. bad.
    + split; [discriminate|]. intros (v & k & Q & F & E). destruct v as [|y v]; [injection Q as -> _; contradiction|]. injection Q as <- ->. inversion F; subst. bad.
Qed.

(** * Words *)

Definition delta (s : state) (x : Z) : state :=
  match s with
  | S_START => if is_digit x then S_DIGIT else S_LETTER
  | S_DIGIT => if is_digit x then S_DIGIT else if x =? PERIOD then S_PERIOD else S_LETTER
  | S_PERIOD => if is_letter x then S_LETTER else if x =? HYPHEN then S_FQDN else S_PERIOD
  | S_LETTER => if (x =? PERIOD) || (x =? HYPHEN) then S_FQDN else S_LETTER
  | _ => S_FQDN
  end.
Definition class (w : list Z) : state := fold_left delta w S_START.
Lemma class_snoc w x : class (w ++ [x]) = delta (class w) x. Proof. unfold class. rewrite fold_left_app. reflexivity. Qed.
Lemma class_app w l : class (w ++ l) = fold_left delta l (class w). Proof. unfold class. rewrite fold_left_app. reflexivity. Qed.

Definition wordly (w : list Z) : Prop := exists c l, w = c :: l /\ alphanumeric c /\ Forall hostly l.
Lemma wordly_snoc w x : wordly w -> hostly x -> wordly (w ++ [x]).
Proof. intros (c & l & -> & A & F) X. exists c, (l ++ [x]). split; [reflexivity|]. split; [exact A|]. apply Forall_app. auto. Qed.
Lemma fold_digit : forall l, Forall digit l -> fold_left delta l S_DIGIT = S_DIGIT.
Proof. induction l as [|x l IH]; intros F; [reflexivity|]. inversion F; subst. cbn [fold_left delta]. rewrite (proj2 (digit_spec x)) by assumption. apply IH. assumption. Qed.
Lemma fold_period : forall l, Forall (fun c => digit c \/ c = PERIOD) l -> fold_left delta l S_PERIOD = S_PERIOD.
Proof. induction l as [|x l IH]; intros F; [reflexivity|]. inversion F as [|? ? X ?]; subst. cbn [fold_left delta]. tests; try bad. apply IH. assumption. Qed.
Lemma fold_letter : forall l, Forall alphanumeric l -> fold_left delta l S_LETTER = S_LETTER.
Proof. induction l as [|x l IH]; intros F; [reflexivity|]. inversion F as [|? ? X ?]; subst. cbn [fold_left delta]. tests; try bad. apply IH. assumption. Qed.
Lemma fold_mixed : forall l, Forall alphanumeric l -> Exists letter l -> fold_left delta l S_DIGIT = S_LETTER.
Proof.
  induction l as [|x l IH]; intros F E; [inversion E|]. inversion F as [|? ? X ?]; subst. cbn [fold_left delta]. tests; try bad.
  - apply IH; [assumption|]. inversion E; subst; [bad|assumption].
  - apply fold_letter. assumption.
Qed.
Lemma numeric_class w : numeric w -> class w = S_DIGIT.
Proof. intros (N & F). destruct w as [|x w]; [contradiction|]. inversion F; subst. unfold class. cbn [fold_left delta]. rewrite (proj2 (digit_spec x)) by assumption. apply fold_digit. assumption. Qed.
Lemma dotted_class w : dotted w -> class w = S_PERIOD.
Proof. intros (n & l & -> & N & F). rewrite class_app, (numeric_class n N). cbn [fold_left delta]. apply fold_period. exact F. Qed.
Lemma plain_class w : plain w -> class w = S_LETTER.
Proof.
  intros [(F & E)|[(n & l & -> & N & F)|(n & c & l & -> & N & C & F)]].
  - destruct w as [|x w]; [inversion E|]. inversion F as [|? ? X ?]; subst. unfold class. cbn [fold_left delta]. tests; try bad; [|apply fold_letter; assumption]. apply fold_mixed; [assumption|]. inversion E; subst; [bad|assumption].
  - rewrite class_app, (numeric_class n N). cbn [fold_left delta]. apply fold_letter. exact F.
  - rewrite class_app, (dotted_class n N). cbn [fold_left delta]. rewrite (proj2 (letter_spec c) C). apply fold_letter. exact F.
Qed.
Lemma class_numeric w : wordly w -> match class w with S_DIGIT => numeric w | S_PERIOD => dotted w | S_LETTER => plain w | S_FQDN => True | _ => False end.
Proof.
  induction w as [|x w IH] using rev_ind; [intros (c & l & E & _); discriminate E|]. intros W. destruct w as [|y w].
  - destruct W as (c & l & E & A & F). cbn [app] in E. injection E as <- <-. unfold class. cbn [app fold_left delta]. tests.
    + split; [discriminate|constructor; [assumption|constructor]].
    + left. assert (letter x) by (chars; lia). split; constructor; auto.
  - assert (HX : hostly x) by (destruct W as (c & l & E & _ & F); injection E as <- <-; apply Forall_app in F as (_ & F); inversion F; assumption).
    assert (W' : wordly (y :: w)) by (destruct W as (c & l & E & A & F); injection E as <- <-; exists y, w; apply Forall_app in F as (F & _); auto).
    specialize (IH W'). rewrite class_snoc. destruct (class (y :: w)); try contradiction; cbn [delta].
    + tests; try bad.
      * subst x. exists (y :: w), []. auto.
      * destruct IH as (N & F). split; [discriminate|]. apply Forall_app. auto.
      * change (plain ((y :: w) ++ [x])). destruct HX as [[|]|[->|]]; try contradiction.
        -- left. destruct IH as (_ & F). split; [apply Forall_app; split; [eapply Forall_impl; [|exact F]; unfold alphanumeric; auto|constructor; [unfold alphanumeric; auto|constructor]]|apply Exists_app; right; constructor; assumption].
        -- right. left. exists (y :: w), []. auto.
    + tests; try bad.
      * exact I.
      * right. right. exists (y :: w), x, []. auto.
      * destruct IH as (m & l & E & N & F). exists m, (l ++ [x]). rewrite E, <- app_assoc. split; [reflexivity|]. split; [exact N|]. apply Forall_app. split; [exact F|]. constructor; [|constructor]. chars; lia.
    + tests; try exact I. assert (A : alphanumeric x) by (chars; lia).
      destruct IH as [(F & E)|[(m & l & E & N & F)|(m & c & l & E & N & C & F)]].
      * left. split; [apply Forall_app; auto|apply Exists_app; auto].
      * right. left. exists m, (l ++ [x]). rewrite E, <- app_assoc. split; [reflexivity|]. split; [exact N|]. apply Forall_app; auto.
      * right. right. exists m, c, (l ++ [x]). rewrite E, <- app_assoc. split; [reflexivity|]. split; [exact N|]. split; [exact C|]. apply Forall_app; auto.
    + exact I.
Qed.
Lemma host_classes w : host w <-> wordly w /\ (class w = S_LETTER \/ class w = S_FQDN).
Proof.
  split.
  - intros (c & l & E & A & F & NN & ND). assert (W : wordly w) by (exists c, l; auto). split; [exact W|]. pose proof (class_numeric w W) as C. destruct (class w); try contradiction; auto.
  - intros (W & C). pose proof W as (c & l & E & A & F). exists c, l. split; [exact E|]. split; [exact A|]. split; [exact F|]. split; intros N; [apply numeric_class in N|apply dotted_class in N]; destruct C as [C|C]; congruence.
Qed.
Lemma numeric_wordly w : numeric w -> wordly w.
Proof. intros (N & F). destruct w as [|x w]; [contradiction|]. inversion F; subst. exists x, w. split; [reflexivity|]. split; [left; assumption|]. eapply Forall_impl; [|eassumption]. unfold hostly, alphanumeric. auto. Qed.
Lemma dotted_wordly w : dotted w -> wordly w.
Proof.
  intros (n & l & -> & N & F). destruct (numeric_wordly n N) as (x & k & -> & A & K). exists x, (k ++ PERIOD :: l). split; [reflexivity|]. split; [exact A|]. apply Forall_app. split; [exact K|]. constructor; [unfold hostly; auto|]. eapply Forall_impl; [|exact F]. unfold hostly, alphanumeric. intros a [|]; auto.
Qed.

(** A word is scanned. *)
Lemma scan_hostly : forall v s w l, Forall hostly v -> (s = S_DIGIT \/ s = S_PERIOD \/ s = S_LETTER \/ s = S_FQDN) -> scan s w nothing (v ++ l) = scan (fold_left delta v s) (w ++ v) nothing l.
Proof.
  induction v as [|x v IH]; intros s w l F S; [rewrite app_nil_r; reflexivity|]. inversion F as [|? ? X ?]; subst. cbn [app fold_left].
  assert (T : a_turn s w nothing x = inl (delta s x, w ++ [x], nothing) /\ (delta s x = S_DIGIT \/ delta s x = S_PERIOD \/ delta s x = S_LETTER \/ delta s x = S_FQDN)).
  { destruct S as [->|[->|[->| -> ]]]; cbn [a_turn delta]; tests; try bad; auto. }
  destruct T as (T & D). cbn [scan]. rewrite T. rewrite IH by assumption. rewrite <- app_assoc. reflexivity.
Qed.
Lemma scan_word w l : wordly w -> scan S_START [] nothing (w ++ l) = scan (class w) w nothing l.
Proof.
  intros (x & v & -> & A & F). cbn [app scan].
  assert (T : forall u, a_turn S_START u nothing x = inl (delta S_START x, [x], nothing) /\ (delta S_START x = S_DIGIT \/ delta S_START x = S_LETTER)) by (intros u; cbn [a_turn delta]; tests; try bad; auto).
  destruct (T []) as (E & D). rewrite E. rewrite scan_hostly by (assumption || tauto). reflexivity.
Qed.
(** All that begins with a letter or a digit begins with a word. *)
Lemma split_word : forall l, exists v k, l = v ++ k /\ Forall hostly v /\ match k with [] => True | x :: _ => ~ hostly x end.
Proof.
  induction l as [|x l (v & k & E & F & K)]; [exists [], []; auto|].
  assert (D : hostly x \/ ~ hostly x) by (chars; lia). destruct D as [D|D]; [exists (x :: v), k; rewrite E; auto|exists [], (x :: l); auto].
Qed.

(** * The grammar *)

Lemma scan_start_unmarked : forall l w v, scan S_START w nothing l = scan S_START v nothing l.
Proof.
  induction l as [|x l IH]; intros w v; [reflexivity|]. cbn [scan a_turn]. tests; unfold go; try reflexivity; try apply IH.
  1: { clear. revert w v. assert (forall l w v c, scan S_COLON w c l = scan S_COLON v c l); [|auto]. clear. intros l w v c. destruct l as [|y l]; [reflexivity|]. cbn [scan a_turn]. tests; reflexivity. }
Qed.
Lemma scan_sound : forall s d, ~ In 0 s -> scan S_START [] nothing s = Some d -> spells s d.
Proof.
  induction s as [|x s IH]; intros d N E.
  - cbn in E. injection E as <-. apply Sp_empty.
  - assert (NX : x <> 0) by (intros ->; apply N; left; reflexivity). assert (NS : ~ In 0 s) by (intros I; apply N; right; exact I).
    assert (D : alphanumeric x \/ ~ alphanumeric x) by (chars; lia). destruct D as [A|NA].
    + destruct (split_word s) as (v & k & -> & F & K). assert (W : wordly (x :: v)) by (exists x, v; auto). assert (NK : ~ In 0 k) by (intros I; apply NS, in_app_iff; auto).
      change (x :: v ++ k) with ((x :: v) ++ k) in *. rewrite (scan_word _ k W) in E. pose proof (class_numeric _ W) as C.
      destruct (class (x :: v)) eqn:CL; try contradiction; (destruct k as [|y k]; [|assert (NY : y <> 0) by (intros ->; apply NK; left; reflexivity); assert (NK' : ~ In 0 k) by (intros I; apply NK; right; exact I)]); cbn [scan a_turn] in E; revert E; tests; unfold go; try (exfalso; chars; lia); try discriminate; intros E; try contradiction.
      * injection E as <-. rewrite app_nil_r. apply Sp_port, C.
      * subst y. rewrite (scan_path k _ _ NK') in E. injection E as <-. rewrite <- app_assoc. apply Sp_word. left. exact C.
      * injection E as <-. apply Sp_ipv4; [exact C|constructor].
      * subst y. rewrite (scan_colon _ _ _ _ NK') in E. apply Sp_ipv4; [exact C|constructor; exact E].
      * injection E as <-. rewrite app_nil_r. apply Sp_name; [apply host_classes; auto|exact C].
      * subst y. rewrite (scan_colon _ _ _ _ NK') in E. apply Sp_fqdn_colon; [apply host_classes; auto|exact E].
      * subst y. rewrite (scan_path k _ _ NK') in E. injection E as <-. rewrite <- app_assoc. apply Sp_word. right. apply host_classes; auto.
      * injection E as <-. rewrite app_nil_r. apply Sp_fqdn; [apply host_classes; auto|]. intros P. apply plain_class in P. congruence.
      * subst y. rewrite (scan_colon _ _ _ _ NK') in E. apply Sp_fqdn_colon; [apply host_classes; auto|exact E].
      * subst y. rewrite (scan_path k _ _ NK') in E. injection E as <-. rewrite <- app_assoc. apply Sp_word. right. apply host_classes; auto.
    + cbn [scan a_turn] in E. revert E. tests; unfold go; try (exfalso; chars; lia); try contradiction; intros E.
      * apply Sp_skip; [subst; chars; lia|]. apply IH; assumption.
      * apply Sp_skip; [subst; chars; lia|]. apply IH; assumption.
      * subst x. rewrite (scan_colon _ _ _ _ NS) in E. apply Sp_colon, E.
      * subst x. rewrite (scan_ipv6 _ _ _ _ NS) in E. destruct E as (v & k & -> & F & E). apply Sp_ipv6; assumption.
      * subst x. rewrite (scan_path s _ _ NS) in E. injection E as <-. apply Sp_path. auto.
      * subst x. rewrite (scan_path s _ _ NS) in E. injection E as <-. apply Sp_path. auto.
      * apply Sp_skip; [unfold skipped; auto|]. apply IH; assumption.
Qed.
Lemma scan_complete s d : spells s d -> ~ In 0 s -> scan S_START [] nothing s = Some d.
Proof.
  induction 1 as [x s c SK SP IH| |x s E|w s E|l d F|w N|w l d W E|w l d W E|w H P|w H P|w l d H F]; intros N0.
  - assert (x <> 0) by (intros ->; apply N0; left; reflexivity). specialize (IH ltac:(intros I; apply N0; right; exact I)). cbn [scan a_turn]. tests; unfold go; try (exfalso; chars; lia); exact IH.
  - reflexivity.
  - assert (NS : ~ In 0 s) by (intros I; apply N0; right; exact I). destruct E as [->| -> ]; cbn [scan a_turn]; tests; unfold go; try (exfalso; chars; lia); rewrite scan_path by exact NS; reflexivity.
  - assert (NS : ~ In 0 s) by (intros I; apply N0, in_app_iff; right; right; exact I).
    assert (W : wordly w /\ (class w = S_DIGIT \/ class w = S_LETTER \/ class w = S_FQDN)) by (destruct E as [E|E]; [split; [apply numeric_wordly, E|left; apply numeric_class, E]|apply host_classes in E as (W & C); auto]).
    destruct W as (W & C). rewrite (scan_word w _ W). destruct C as [->|[->| -> ]]; cbn [scan a_turn SLASH PERIOD HYPHEN COLON Z.eqb Pos.eqb is_digit is_letter]; cbn; rewrite scan_path by exact NS; rewrite <- app_assoc; reflexivity.
  - assert (NL : ~ In 0 l) by (intros I; apply N0; right; exact I). cbn. apply scan_colon; assumption.
  - rewrite <- (app_nil_r w) at 1. rewrite (scan_word w [] (numeric_wordly w N)), (numeric_class w N). reflexivity.
  - rewrite (scan_word w l (dotted_wordly w W)), (dotted_class w W). inversion E as [|k d' F]; subst; [reflexivity|]. cbn. apply scan_colon; [|exact F]. intros I. apply N0, in_app_iff. right. right. exact I.
  - cbn. apply scan_ipv6; [intros I; apply N0; right; exact I|]. exists w, l. auto.
  - rewrite <- (app_nil_r w) at 1. apply host_classes in H as (W & _). rewrite (scan_word w [] W), (plain_class w P). reflexivity.
  - rewrite <- (app_nil_r w) at 1. apply host_classes in H as (W & C). rewrite (scan_word w [] W). pose proof (class_numeric w W) as Q. destruct C as [C|C]; rewrite C in *; [contradiction|reflexivity].
  - apply host_classes in H as (W & C). rewrite (scan_word w _ W). assert (NL : ~ In 0 l) by (intros I; apply N0, in_app_iff; right; right; exact I). destruct C as [->| -> ]; cbn; apply scan_colon; assumption.
Qed.
