(** Lemmas on the shaping utilities. *)

From Coq Require Import ZArith List Bool Lia.
From Verif Require Import CInt CUtil ChecksumModel ChecksumSpec ChecksumProofs ThrottleModel ThrottleSpec ThrottleProofs ShapeModel ShapeSpec.
Import ListNotations.
Local Open Scope Z_scope.

Lemma wait_client : forall polls s n s' now rest, wait polls s n = Some (s', now, rest) ->
  exists used, polls = used ++ now :: rest /\ forall more, shaper_client s (map (fun t => (t, n)) used ++ (now, n) :: more) = (now, n) :: shaper_client s' more.
Proof.
  induction polls as [|t polls IH]; intros s n s' now rest E; [discriminate E|]. cbn [wait] in E. destruct (shaper_request s (u64 t)) as (s1 & d) eqn:R. destruct (d =? 0) eqn:D.
  - injection E as <- <- <-. exists []. split; [reflexivity|]. intros more. cbn [map app shaper_client]. rewrite R, D. reflexivity.
  - destruct (IH _ _ _ _ _ E) as (used & -> & C). exists (t :: used). split; [reflexivity|]. intros more. cbn [map app shaper_client]. rewrite R, D. apply C.
Qed.

Lemma shape_client : forall reads writes polls s r xc out times r', shape reads writes polls s r = Some (xc, out, times, r') ->
  exists attempts rest, polls = map fst attempts ++ rest /\ Forall (fun a => exists b, In b (supplied reads) /\ snd a = Z.of_nat (length b)) attempts /\ times = shaper_client s attempts.
Proof.
  induction reads as [|e reads IH]; intros writes polls s r xc out times r' E; [discriminate E|]. cbn [shape] in E. destruct e as [b| | |].
  - destruct (wait polls s (Z.of_nat (length b))) as [((s1 & now) & rest)|] eqn:W; [|discriminate E]. cbn [bind] in E. destruct (wait_client _ _ _ _ _ _ W) as (used & P & C).
    destruct writes as [|rc writes]; [discriminate E|].
    assert (one : Forall (fun a => exists b', In b' (supplied (Data b :: reads)) /\ snd a = Z.of_nat (length b')) (map (fun t => (t, Z.of_nat (length b))) used ++ [(now, Z.of_nat (length b))])).
    { apply Forall_app. split; [|constructor; [exists b; split; [left; reflexivity|reflexivity]|constructor]]. apply Forall_forall. intros a I. apply in_map_iff in I. destruct I as (t & <- & _). exists b. split; [left; reflexivity|reflexivity]. }
    assert (fsts : map fst (map (fun t => (t, Z.of_nat (length b))) used ++ [(now, Z.of_nat (length b))]) = used ++ [now]).
    { rewrite map_app, map_map. cbn [map fst]. rewrite map_id. reflexivity. }
    assert (stop : forall x, Some x = Some (xc, out, times, r') -> snd (fst x) = [(now, Z.of_nat (length b))] -> exists attempts rest, polls = map fst attempts ++ rest /\ Forall (fun a => exists b', In b' (supplied (Data b :: reads)) /\ snd a = Z.of_nat (length b')) attempts /\ times = shaper_client s attempts).
    { intros x X T. injection X as ->. cbn [fst snd] in T. exists (map (fun t => (t, Z.of_nat (length b))) used ++ [(now, Z.of_nat (length b))]), rest. split; [rewrite fsts, P, <- app_assoc; reflexivity|]. split; [exact one|]. rewrite C. exact T. }
    destruct (rc >? 0); [|destruct (rc =? 0); exact (stop _ E eq_refl)].
    destruct (shape reads writes rest s1 (account r b)) as [(((xc1 & out1) & times1) & r1)|] eqn:S; [|discriminate E]. cbn [bind] in E. destruct (IH _ _ _ _ _ _ _ _ S) as (attempts & rest1 & P1 & F1 & T1). injection E as <- _ <- _.
    exists ((map (fun t => (t, Z.of_nat (length b))) used ++ [(now, Z.of_nat (length b))]) ++ attempts), rest1. split; [|split].
    + rewrite map_app, fsts, P, P1, <- !app_assoc. reflexivity.
    + apply Forall_app. split; [exact one|]. eapply Forall_impl; [|exact F1]. intros a (b' & I & Q). exists b'. split; [right; exact I|exact Q].
    + rewrite <- app_assoc. cbn [app]. rewrite C, T1. reflexivity.
  - injection E as _ _ <- _. exists [], polls. repeat split. constructor.
  - exact (IH _ _ _ _ _ _ _ _ E).
  - injection E as _ _ <- _. exists [], polls. repeat split. constructor.
Qed.

Lemma ticking_clock start : forall attempts last rest, ticking start last (map fst attempts ++ rest) -> clock last attempts /\ within start attempts.
Proof.
  induction attempts as [|(t & n) attempts IH]; intros last rest T; cbn [map app ticking clock fst] in *; [split; [exact I|constructor]|]. destruct T as (A & T). destruct (IH _ _ T) as (B & C). split; [split; [lia|exact B]|]. constructor; [cbn [fst]; lia|exact C].
Qed.

Lemma amount_total l : amount l = total l.
Proof. unfold total. induction l as [|(t & n) l IH]; [reflexivity|]. cbn [amount fold_right map snd] in *. unfold amount in IH. rewrite IH. reflexivity. Qed.

(** What is written. *)
Lemma shape_out : forall reads writes polls s r xc out times r', shape reads writes polls s r = Some (xc, out, times, r') ->
  Forall2 (fun w b => w <= 0 \/ w = Z.of_nat (length b)) (firstn (length times) writes) (firstn (length times) (supplied reads)) ->
  prefix out (concat (supplied reads)) /\
  (Forall (fun w => 0 < w) (firstn (length times) writes) -> out = concat (supplied reads) /\ Some xc = ending reads /\ map snd times = map (fun b => Z.of_nat (length b)) (supplied reads)).
Proof.
  induction reads as [|e reads IH]; intros writes polls s r xc out times r' E F; [discriminate E|]. cbn [shape] in E. destruct e as [b| | |]; cbn [supplied ending concat] in *.
  - destruct (wait polls s (Z.of_nat (length b))) as [((s1 & now) & rest)|]; [|discriminate E]. cbn [bind] in E. destruct writes as [|rc writes]; [discriminate E|].
    assert (stop : forall x, (rc > 0 -> False) -> Some (x, [] : list Z, [(now, Z.of_nat (length b))], account r b) = Some (xc, out, times, r') -> prefix out (b ++ concat (supplied reads)) /\
      (Forall (fun w => 0 < w) (firstn (length times) (rc :: writes)) -> out = b ++ concat (supplied reads) /\ Some xc = ending reads /\ map snd times = Z.of_nat (length b) :: map (fun b => Z.of_nat (length b)) (supplied reads))).
    { intros x R X. injection X as _ <- <- _. split; [eexists; reflexivity|]. cbn [length firstn]. intros Q. inversion Q; lia. }
    destruct (Z.gtb_spec rc 0) as [R|R]; [|destruct (rc =? 0); eapply stop; try exact E; lia].
    destruct (shape reads writes rest s1 (account r b)) as [(((xc1 & out1) & times1) & r1)|] eqn:S; [|discriminate E]. cbn [bind] in E. injection E as <- <- <- _.
    cbn [length firstn] in F. inversion F as [|? ? ? ? H1 H2]; subst. destruct H1 as [H1|H1]; [lia|]. rewrite H1, Nat2Z.id, firstn_all. destruct (IH _ _ _ _ _ _ _ _ S H2) as ((c & P) & Q). split; [exists c; rewrite P, app_assoc; reflexivity|].
    cbn [length firstn map snd]. intros G. inversion G; subst. destruct (Q ltac:(assumption)) as (-> & -> & ->). repeat split.
  - injection E as <- <- <- _. split; [exists []; reflexivity|]. intros _. repeat split.
  - exact (IH _ _ _ _ _ _ _ _ E F).
  - injection E as <- <- <- _. split; [exists []; reflexivity|]. intros _. repeat split.
Qed.

(** * The buffered one *)

Lemma fgets_split n : forall l a b e, fgets n l = (a, b, e) -> l = a ++ b /\ (n <> O -> a = [] -> e = true /\ l = []) /\ (e = true -> b = []).
Proof.
  induction n as [|n IH]; intros l a b e E; [injection E as <- <- <-; repeat split; intros; [contradiction|contradiction|discriminate]|].
  destruct l as [|c l]; cbn [fgets] in E; [injection E as <- <- <-; repeat split|]. destruct (c =? 10).
  - injection E as <- <- <-. repeat split; intros; discriminate.
  - destruct (fgets n l) as ((a1 & b1) & e1) eqn:G. injection E as <- <- <-. destruct (IH _ _ _ _ G) as (-> & _ & C). split; [reflexivity|]. split; [intros _ Q; discriminate Q|exact C].
Qed.
Lemma strlen_all s : ~ In 0 s -> strlen s = length s.
Proof. induction s as [|c s IH]; intros N; [reflexivity|]. cbn [strlen length In] in *. destruct (Z.eqb_spec c 0); [tauto|]. f_equal. apply IH. tauto. Qed.

Definition clean (mode : io) (size : nat) (stdin : list Z) : Prop :=
  match mode with Line => (2 <= size)%nat /\ ~ In 0 stdin | _ => (1 <= size)%nat end.

Lemma input_spec mode size stdin bad : clean mode size stdin ->
  match input mode size stdin bad with
  | Some_ data rest => stdin = data ++ rest /\ data <> [] /\ clean mode size rest
  | Over => stdin = [] /\ bad = false
  | Fault => stdin = [] /\ bad = true
  end.
Proof.
  intros C. unfold input. destruct mode; cbn [clean] in *.
  - destruct (Nat.ltb_spec 0 (length (firstn size stdin))) as [L|L].
    + rewrite firstn_all. split; [symmetry; apply firstn_skipn|]. split; [|exact C]. intros Q. rewrite Q in L. cbn in L. lia.
    + assert (stdin = []) as -> by (destruct stdin as [|c l]; [reflexivity|]; destruct size; cbn in L; lia). cbn [length]. destruct (Nat.ltb_spec 0 size); [|lia]. destruct bad; repeat split.
  - destruct stdin as [|c rest]; cbn [Nat.ltb Nat.leb]; [destruct bad; repeat split|]. cbn [firstn]. repeat split; [discriminate|exact C].
  - destruct C as (C & N). destruct (fgets (size - 1) stdin) as ((a & b) & e) eqn:G. destruct (fgets_split _ _ _ _ _ G) as (-> & P & _). rewrite strlen_all by (intros I; apply N, in_or_app; left; exact I).
    destruct (Nat.ltb_spec 0 (length a)) as [L|L].
    + rewrite firstn_all. split; [reflexivity|]. split; [intros ->; cbn in L; lia|]. split; [exact C|]. intros I. apply N, in_or_app. right. exact I.
    + assert (A : a = []) by (destruct a; [reflexivity|cbn in L; lia]). destruct (P ltac:(lia) A) as (-> & Q). destruct bad; cbn [andb negb]; split; auto.
Qed.

Lemma copy_spec : forall fuel mode size stdin bad ok, clean mode size stdin -> (length stdin < fuel)%nat ->
  exists xc out, copy fuel mode size stdin bad ok = Some (xc, out) /\ prefix out stdin /\ ((forall n, ok n = true) -> out = stdin /\ xc = if bad then 3 else 0) /\ (xc = 0 -> out = stdin /\ bad = false).
Proof.
  induction fuel as [|fuel IH]; intros mode size stdin bad ok C F; [lia|]. cbn [copy]. pose proof (input_spec mode size stdin bad C) as I. destruct (input mode size stdin bad) as [data rest| |].
  - destruct I as (-> & D & C'). destruct (ok O) eqn:O.
    + destruct (IH mode size rest bad (fun n => ok (S n)) C') as (xc & out & E & (c & P) & Q & R). { rewrite app_length in F. destruct data; [contradiction|cbn [length] in F; lia]. }
      rewrite E. cbn [bind]. exists xc, (data ++ out). split; [reflexivity|]. split; [exists c; rewrite P, app_assoc; reflexivity|]. split.
      * intros A. destruct (Q (fun n => A (S n))) as (-> & ->). split; reflexivity.
      * intros X. destruct (R X) as (-> & ->). split; reflexivity.
    + do 2 eexists. split; [reflexivity|]. split; [eexists; reflexivity|]. split; [intros A; rewrite A in O; discriminate O|discriminate].
  - destruct I as (-> & ->). do 2 eexists. split; [reflexivity|]. split; [exists []; reflexivity|]. split; [split; reflexivity|split; reflexivity].
  - destruct I as (-> & ->). do 2 eexists. split; [reflexivity|]. split; [exists []; reflexivity|]. split; [split; reflexivity|discriminate].
Qed.

Lemma shape_count : forall reads writes polls s r xc out times r', shape reads writes polls s r = Some (xc, out, times, r') -> (length times <= length writes /\ length times <= length (supplied reads))%nat.
Proof.
  induction reads as [|e reads IH]; intros writes polls s r xc out times r' E; [discriminate E|]. cbn [shape] in E. destruct e as [b| | |]; cbn [supplied] in *.
  - destruct (wait polls s (Z.of_nat (length b))) as [((s1 & now) & rest)|]; [|discriminate E]. cbn [bind] in E. destruct writes as [|rc writes]; [discriminate E|].
    destruct (rc >? 0); [|destruct (rc =? 0); injection E as _ _ <- _; cbn [length]; lia].
    destruct (shape reads writes rest s1 (account r b)) as [(((xc1 & out1) & times1) & r1)|] eqn:S; [|discriminate E]. cbn [bind] in E. injection E as _ _ <- _. apply IH in S. cbn [length]. lia.
  - injection E as _ _ <- _. cbn [length]. lia.
  - exact (IH _ _ _ _ _ _ _ _ E).
  - injection E as _ _ <- _. cbn [length]. lia.
Qed.
Lemma firstn_Forall2 {A B} (P : A -> B -> Prop) : forall n l m, (n <= length l)%nat -> (n <= length m)%nat ->
  (forall i a b, nth_error l i = Some a -> nth_error m i = Some b -> P a b) -> Forall2 P (firstn n l) (firstn n m).
Proof.
  induction n as [|n IH]; intros l m L M H; [constructor|]. destruct l as [|a l], m as [|b m]; cbn [length] in *; try lia. cbn [firstn]. constructor; [exact (H O a b eq_refl eq_refl)|]. apply IH; [lia|lia|]. intros i. exact (H (S i)).
Qed.
Lemma firstn_Forall {A B} (P : A -> Prop) : forall n (l : list A) (m : list B), (n <= length m)%nat ->
  (forall i a b, nth_error l i = Some a -> nth_error m i = Some b -> P a) -> Forall P (firstn n l).
Proof.
  induction n as [|n IH]; intros l m M H; [constructor|]. destruct l as [|a l]; [constructor|]. destruct m as [|b m]; cbn [length] in *; [lia|]. cbn [firstn]. constructor; [exact (H O a b eq_refl eq_refl)|]. apply (IH l m); [lia|]. intros i. exact (H (S i)).
Qed.

(** The report. *)
Definition tally (r : report) (blocks : list (list Z)) : report := fold_left account blocks r.
Lemma shape_report : forall reads writes polls s r xc out times r', shape reads writes polls s r = Some (xc, out, times, r') -> r' = tally r (firstn (length times) (supplied reads)).
Proof.
  induction reads as [|e reads IH]; intros writes polls s r xc out times r' E; [discriminate E|]. cbn [shape] in E. destruct e as [b| | |]; cbn [supplied] in *.
  - destruct (wait polls s (Z.of_nat (length b))) as [((s1 & now) & rest)|]; [|discriminate E]. cbn [bind] in E. destruct writes as [|rc writes]; [discriminate E|].
    assert (stop : forall x, Some (x, [] : list Z, [(now, Z.of_nat (length b))], account r b) = Some (xc, out, times, r') -> r' = tally r (firstn (length times) (b :: supplied reads))).
    { intros x X. injection X as _ _ <- <-. reflexivity. }
    destruct (rc >? 0); [|destruct (rc =? 0); exact (stop _ E)].
    destruct (shape reads writes rest s1 (account r b)) as [(((xc1 & out1) & times1) & r1)|] eqn:S; [|discriminate E]. cbn [bind] in E. injection E as _ _ <- <-. apply IH in S. exact S.
  - injection E as _ _ <- <-. reflexivity.
  - exact (IH _ _ _ _ _ _ _ _ E).
  - injection E as _ _ <- <-. reflexivity.
Qed.
Lemma tally_ios : forall blocks r, 0 <= ios r < 2 ^ 64 -> ios (tally r blocks) = (ios r + Z.of_nat (length blocks)) mod 2 ^ 64.
Proof.
  induction blocks as [|b blocks IH]; intros r R; cbn [tally fold_left length]; [rewrite Z.add_0_r, Z.mod_small; [reflexivity|exact R]|]. change (fold_left account blocks (account r b)) with (tally (account r b) blocks).
  assert (E : ios (account r b) = (ios r + 1) mod 2 ^ 64) by (unfold account; destruct (fletcher_16 b _ _); reflexivity). rewrite IH by (rewrite E; apply Z.mod_pos_bound; lia).
  rewrite E, Zplus_mod_idemp_l. f_equal. lia.
Qed.
Lemma tally_octets : forall blocks r, 0 <= octets_ r < 2 ^ 64 -> octets_ (tally r blocks) = (octets_ r + Z.of_nat (length (concat blocks))) mod 2 ^ 64.
Proof.
  induction blocks as [|b blocks IH]; intros r R; cbn [tally fold_left concat length]; [rewrite Z.add_0_r, Z.mod_small; [reflexivity|exact R]|]. change (fold_left account blocks (account r b)) with (tally (account r b) blocks).
  assert (E : octets_ (account r b) = (octets_ r + Z.of_nat (length b)) mod 2 ^ 64) by (unfold account; destruct (fletcher_16 b _ _); reflexivity). rewrite IH by (rewrite E; apply Z.mod_pos_bound; lia).
  rewrite E, Zplus_mod_idemp_l. f_equal. rewrite app_length. lia.
Qed.
Lemma tally_largest : forall blocks r, 0 <= largest r -> let m := largest (tally r blocks) in largest r <= m /\ Forall (fun b => Z.of_nat (length b) <= m) blocks /\ (m = largest r \/ Exists (fun b => Z.of_nat (length b) = m) blocks).
Proof.
  induction blocks as [|b blocks IH]; intros r R m; [unfold m; cbn [tally fold_left]; split; [lia|split; [constructor|left; reflexivity]]|]. unfold m. cbn [tally fold_left]. change (fold_left account blocks (account r b)) with (tally (account r b) blocks).
  assert (E : largest (account r b) = Z.max (largest r) (Z.of_nat (length b))). { unfold account. destruct (fletcher_16 b _ _). cbn [largest]. destruct (Z.gtb_spec (Z.of_nat (length b)) (largest r)); lia. }
  destruct (IH (account r b) ltac:(lia)) as (A & B & C). rewrite E in *. split; [lia|]. split; [constructor; [lia|exact B]|].
  destruct C as [C|C]; [|right; right; exact C]. destruct (Z.max_spec (largest r) (Z.of_nat (length b))) as [(_ & M)|(_ & M)]; rewrite M in C; [right; left; lia|left; exact C].
Qed.
Lemma tally_fletcher : forall blocks r, octets (concat blocks) -> is_u8 (fletcher_a r) -> is_u8 (fletcher_b r) ->
  (fletcher_a (tally r blocks), fletcher_b (tally r blocks)) = fletcher_16 (concat blocks) (fletcher_a r) (fletcher_b r).
Proof.
  induction blocks as [|b blocks IH]; intros r F A B; [symmetry; apply fletcher_16_nil; assumption|]. cbn [tally fold_left concat] in *. change (fold_left account blocks (account r b)) with (tally (account r b) blocks).
  apply Forall_app in F. destruct F as (F1 & F2).
  assert (E : (fletcher_a (account r b), fletcher_b (account r b)) = fletcher_16 b (fletcher_a r) (fletcher_b r)) by (unfold account; destruct (fletcher_16 b _ _); reflexivity).
  rewrite fletcher_16_app by assumption. rewrite <- E. cbn [fst snd]. apply IH; [exact F2| |].
  - destruct b as [|x b]; [rewrite fletcher_16_nil in E by assumption; replace (fletcher_a (account r [])) with (fletcher_a r) by congruence; exact A|]. pose proof (fletcher_16_bound (x :: b) _ _ F1 A B ltac:(discriminate)) as Q. rewrite <- E in Q. cbn [fst snd] in Q. unfold is_u8. lia.
  - destruct b as [|x b]; [rewrite fletcher_16_nil in E by assumption; replace (fletcher_b (account r [])) with (fletcher_b r) by congruence; exact B|]. pose proof (fletcher_16_bound (x :: b) _ _ F1 A B ltac:(discriminate)) as Q. rewrite <- E in Q. cbn [fst snd] in Q. unfold is_u8. lia.
Qed.
