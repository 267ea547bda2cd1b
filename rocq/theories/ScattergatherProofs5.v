From Coq Require Import ZArith List Bool Arith Lia Permutation.
From Verif Require Import CUtil CInt ListModel ListSpec ListProofs ListProofs2 ListProofs3 ListProofs4 ListProofs6 ScattergatherModel ScattergatherSpec ScattergatherProofs ScattergatherProofs2 ScattergatherProofs3 ScattergatherProofs4.
Import ListNotations.
Local Open Scope nat_scope.

(** * What was read is what is there *)
Definition octets_in (f : nat -> option content) (x : nat) : list Z := match f x with Some c => firstn (Z.to_nat (length_of c)) (field c) | None => [] end.
Lemma fill_other : forall xs f bs y, ~ In y xs -> fill f xs bs y = f y.
Proof.
  induction xs as [|x xs IH]; intros f bs y H; [reflexivity|]. cbn [fill]. destruct (f x); [|reflexivity]. rewrite IH by (intros Z; apply H; right; exact Z).
  unfold set. destruct (Nat.eqb_spec y x) as [->|]; [exfalso; apply H; left; reflexivity|reflexivity].
Qed.
Lemma flat_map_same f g (xs : list nat) : (forall x, In x xs -> f x = g x) -> flat_map (octets_in f) xs = flat_map (octets_in g) xs.
Proof.
  induction xs as [|x xs IH]; intros H; [reflexivity|]. cbn [flat_map]. rewrite IH by (intros y Hy; apply H; right; exact Hy). unfold octets_in at 1 3. rewrite (H x (or_introl eq_refl)). reflexivity.
Qed.
Lemma fill_octets : forall xs f bs, NoDup xs ->
  (forall x, In x xs -> exists c, f x = Some c /\ (0 <= length_of c <= Z.of_nat (length (field c)))%Z) ->
  length bs <= length (flat_map (octets_in f) xs) ->
  flat_map (octets_in (fill f xs bs)) xs = bs ++ skipn (length bs) (flat_map (octets_in f) xs).
Proof.
  induction xs as [|x xs IH]; intros f bs N S L.
  - destruct bs; [reflexivity|cbn in L; lia].
  - inversion N as [|? ? Nx Nxs]; subst. destruct (S x (or_introl eq_refl)) as (c & Hc & B). cbn [fill flat_map] in *. rewrite Hc. rewrite app_length in L.
    set (k := min (Z.to_nat (length_of c)) (length bs)). set (f1 := set f x _).
    assert (E0 : forall y, In y xs -> f1 y = f y) by (intros y Hy; unfold f1, set; destruct (Nat.eqb_spec y x) as [->|]; [contradiction|reflexivity]).
    unfold octets_in at 1. rewrite fill_other by exact Nx. unfold f1 at 1, set. rewrite Nat.eqb_refl. cbn [length_of field].
    assert (OL : length (octets_in f x) = Z.to_nat (length_of c)) by (unfold octets_in; rewrite Hc, firstn_length; lia).
    rewrite OL in L. rewrite IH; [|exact Nxs| |].
    + rewrite (flat_map_same f1 f xs E0). unfold octets_in at 2. rewrite Hc. set (n := Z.to_nat (length_of c)) in *. rewrite skipn_length.
      rewrite skipn_app, firstn_length, (Nat.min_l n) by lia. destruct (Nat.le_ge_cases (length bs) n) as [C|C].
      * assert (Ek : k = length bs) by (unfold k; lia). rewrite Ek, !firstn_all, skipn_all, Nat.sub_diag. replace (length bs - n) with 0 by lia. cbn [app skipn].
        rewrite firstn_app, (firstn_all2 bs) by lia. rewrite skipn_firstn_comm, <- app_assoc. reflexivity.
      * assert (Ek : k = n) by (unfold k; lia). rewrite Ek. rewrite (skipn_all2 (firstn n (field c))) by (rewrite firstn_length; lia). cbn [app].
        rewrite firstn_app, firstn_firstn, firstn_length, !Nat.min_l by lia. rewrite Nat.sub_diag. cbn [firstn]. rewrite app_nil_r, app_assoc, firstn_skipn. reflexivity.
    + intros y Hy. rewrite E0 by exact Hy. apply S. right. exact Hy.
    + rewrite (flat_map_same f1 f xs E0), skipn_length. unfold k. lia.
Qed.
Lemma fill_segment : forall xs f bs y, (match fill f xs bs y with Some _ => true | None => false end) = (match f y with Some _ => true | None => false end).
Proof.
  induction xs as [|x xs IH]; intros f bs y; [reflexivity|]. cbn [fill]. destruct (f x) as [c|] eqn:E; [|reflexivity]. rewrite IH. unfold set. destruct (Nat.eqb_spec y x) as [->|]; [rewrite E|]; reflexivity.
Qed.

Section props.
Context (fuel pp : nat) (sa : list nat) (F : length sa < fuel) (Z0 : ~ In 0 (pp :: sa)).
Set Default Proof Using "All".
Lemma read_message s r x bs : rel pp sa s r -> is_record r x = true -> length bs <= length (message r x) ->
  message (Ref (pool r) (lists r) (fill (segment r) (parts r x) bs)) x = bs ++ skipn (length bs) (message r x).
Proof.
  intros R Rx L. destruct (rel_record _ _ _ _ R x Rx) as (I & _ & _). destruct (rel_ring fuel pp sa F Z0 s r _ R I) as (_ & N & _). inversion N as [|? ? _ N']; subst.
  unfold message. change (parts (Ref (pool r) (lists r) (fill (segment r) (parts r x) bs)) x) with (parts r x).
  change (flat_map (octets_of (Ref (pool r) (lists r) (fill (segment r) (parts r x) bs))) (parts r x)) with (flat_map (octets_in (fill (segment r) (parts r x) bs)) (parts r x)).
  apply fill_octets; [exact N'| |exact L]. intros y Hy. pose proof (parts_segments fuel pp sa F Z0 s r x y R Rx Hy) as Sy. apply is_segment_true in Sy as (c & Hc). exists c. split; [exact Hc|].
  apply (used _ _ _ _ R y c Hc).
Qed.
Lemma r_perform_app : forall a b r r1 r2 xs ys, r_perform_all r a = Some (r1, xs) -> r_perform_all r1 b = Some (r2, ys) -> r_perform_all r (a ++ b) = Some (r2, xs ++ ys).
Proof.
  induction a as [|c a IH]; intros b r r1 r2 xs ys E1 E2; cbn [app r_perform_all] in *; [injection E1 as <- <-; exact E2|].
  destruct (r_perform r c) as [(r3, x)|]; [|discriminate E1]. cbn [bind] in *. destruct (r_perform_all r3 a) as [(r4, xs')|] eqn:E; [|discriminate E1]. cbn [bind] in E1. injection E1 as <- <-.
  rewrite (IH b r3 r4 r2 xs' ys E E2). reflexivity.
Qed.
Lemma perform_app : forall a b s s1 s2 xs ys, perform_all fuel pp s a = Some (s1, xs) -> perform_all fuel pp s1 b = Some (s2, ys) -> perform_all fuel pp s (a ++ b) = Some (s2, xs ++ ys).
Proof.
  induction a as [|c a IH]; intros b r r1 r2 xs ys E1 E2; cbn [app perform_all] in *; [injection E1 as <- <-; exact E2|].
  destruct (perform fuel pp r c) as [(r3, x)|]; [|discriminate E1]. cbn [bind] in *. destruct (perform_all fuel pp r3 a) as [(r4, xs')|] eqn:E; [|discriminate E1]. cbn [bind] in E1. injection E1 as <- <-.
  rewrite (IH b r3 r4 r2 xs' ys E E2). reflexivity.
Qed.
Lemma read_write_ok s r x bs n : rel pp sa s r -> is_record r x = true -> limits r x = true -> length bs <= length (message r x) ->
  exists s', perform_all fuel pp s [Read x (Some bs); Write x n] =
    Some (s', [Number (Z.of_nat (length bs)); Written n (firstn (Z.to_nat n) (bs ++ skipn (length bs) (message r x)))]).
Proof.
  intros R Rx Li L.
  assert (H3 : (Z.of_nat (length (parts r x)) < 18446744073709551616)%Z) by (assert (H2 := Li); apply andb_prop in H2 as (_ & H2); apply Nat.leb_le in H2; lia).
  pose (r1 := Ref (pool r) (lists r) (fill (segment r) (parts r x) bs)).
  assert (E : r_perform_all r [Read x (Some bs); Write x n] = Some (r1, [Number (Z.of_nat (length bs)); Written n (firstn (Z.to_nat n) (bs ++ skipn (length bs) (message r x)))])).
  { cbn [r_perform_all r_perform bind]. rewrite Rx. destruct (Z.ltb_spec (Z.of_nat (length (parts r x))) 18446744073709551616); [|lia]. unfold fits. destruct (Nat.leb_spec (length bs) (length (message r x))); [|lia].
    cbn [andb when bind]. rewrite Li. cbn [bind]. fold r1. change (parts r1 x) with (parts r x). change (limits r1 x) with (limits r x).
    assert (Rx1 : is_record r1 x = true).
    { unfold is_record in *. change (lists r1) with (lists r). apply andb_prop in Rx as (A & B). rewrite A. unfold is_segment in *. cbn [segment r1]. rewrite fill_segment. exact B. }
    rewrite Rx1. destruct (Z.ltb_spec (Z.of_nat (length (parts r x))) 18446744073709551616); [|lia]. cbn [andb when bind]. rewrite Li. cbn [bind].
    unfold r1. rewrite (read_message s r x bs R Rx L). reflexivity. }
  destruct (perform_all_ok fuel pp sa F Z0 _ s r _ _ R E) as (s' & E' & _). exists s'. exact E'.
Qed.
Lemma send_empty s r x n : rel pp sa s r -> is_record r x = true -> limits r x = false -> (Z.of_nat (length (parts r x)) < 18446744073709551616)%Z ->
  record_send fuel s x n = Some (0%Z, []) /\ (forall i, record_receive fuel s x i = Some (s, 0%Z)).
Proof.
  intros R Rx Li L. unfold record_send, record_receive. rewrite (enumerate_ok fuel pp sa F Z0 s r x R Rx L). cbn [bind]. rewrite (limits_ok fuel pp sa F Z0), Li. auto.
Qed.
(** The end of a pool. *)
Lemma pool_fini_ok : forall l turns h rs, represents h ((pp :: l) :: rs) -> length (concat ((pp :: l) :: rs)) <= fuel -> ~ In 0 l -> length l < turns ->
  exists h', pool_fini fuel turns h pp = Some h' /\ represents h' ([pp] :: map (fun x => [x]) (rev l) ++ rs).
Proof.
  induction l as [|x l IH]; intros turns h rs Rep L Z T; (destruct turns as [|turns]; [lia|]); cbn [pool_fini].
  - pose proof (proj1 Rep) as ND. destruct (head_ring h pp [] (Forall_inv (proj2 Rep))) as (-> & _); [constructor; [intros []|constructor]|]. exists h. auto.
  - assert (N : NoDup (pp :: x :: l)) by (destruct Rep as (N & _); cbn [concat] in N; exact (nodup_l _ _ N)).
    destruct (head_ring h pp (x :: l) (Forall_inv (proj2 Rep)) N) as (-> & _). cbn [hd]. destruct (Nat.eqb_spec x NULL) as [->|_]; [exfalso; apply Z; left; reflexivity|].
    destruct (remove_ok fuel h x _ Rep (in_first x (pp :: x :: l) rs (or_intror (or_introl eq_refl))) L) as (h1 & E & R1 & P1 & _). rewrite E. cbn [bind].
    unfold s_remove in R1, P1. pose proof (detach_first h x [pp] l rs Rep) as D. cbn [app ne] in D. rewrite D in R1, P1.
    destruct (IH turns h1 ([x] :: rs)) as (h2 & E2 & R2).
    + apply (represents_perm _ ([x] :: (pp :: l) :: rs)); [apply perm_swap|exact R1].
    + rewrite (Permutation_length P1) in L. cbn [concat] in *. rewrite !app_length in *. cbn in *. lia.
    + intros H. apply Z. right. exact H.
    + cbn in T. lia.
    + exists h2. split; [exact E2|]. cbn [rev]. rewrite map_app, <- app_assoc. exact R2.
Qed.
End props.
