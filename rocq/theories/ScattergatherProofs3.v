From Coq Require Import ZArith List Bool Arith Lia Permutation.
From Verif Require Import CUtil CInt ListModel ListSpec ListProofs ListProofs2 ListProofs3 ListProofs4 ListProofs6 ScattergatherModel ScattergatherSpec ScattergatherProofs ScattergatherProofs2.
Import ListNotations.
Local Open Scope nat_scope.

(** * Looking at a list *)
Lemma ring_at h x l1 y l2 : ring h (x :: l1 ++ y :: l2) -> next (h y) = hd x l2 /\ prev (h y) = last (x :: l1) 0 /\ root (h y) = x.
Proof.
  intros Q. apply ring_cyc in Q as (_ & C & Fr). change (x :: l1 ++ y :: l2) with ((x :: l1) ++ y :: l2) in C, Fr. apply cyc_rot in C. cbn [app] in C.
  destruct (cyc_next _ _ _ C) as (A1 & _ & A3 & _). split; [rewrite A1; destruct l2; reflexivity|]. split.
  - rewrite A3. assert (L : forall (a : list nat) d e, a <> [] -> last a d = last a e) by (induction a as [|? [|? ?] IHa]; intros; [congruence|reflexivity|cbn; apply IHa; discriminate]).
    rewrite (L _ y 0) by (destruct l2; discriminate). apply last_app. discriminate.
  - rewrite Forall_forall in Fr. cbn in Fr. apply Fr. right. apply in_or_app. right. left. reflexivity.
Qed.
Lemma ring_root h x l : ring h (x :: l) -> next (h x) = hd x l /\ prev (h x) = last l x /\ root (h x) = x.
Proof.
  intros Q. apply ring_cyc in Q as (_ & C & Fr). destruct (cyc_next _ _ _ C) as (A1 & _ & A3 & _). split; [exact A1|]. split; [exact A3|exact (Forall_inv Fr)].
Qed.
Lemma head_ring h x l : ring h (x :: l) -> NoDup (x :: l) -> head h x = hd 0 l /\ tail h x = last l 0.
Proof.
  intros Q N. destruct (ring_root h x l Q) as (A1 & A2 & A3). unfold head, tail, isempty. rewrite A3, A1, A2.
  destruct l as [|y l]; [cbn; rewrite Nat.eqb_refl; auto|]. cbn [hd]. destruct (Nat.eqb_spec x y) as [->|_]; [exfalso; inversion N as [|? ? X _]; apply X; left; reflexivity|].
  split; [reflexivity|]. clear. revert y. induction l as [|z l IH]; intros y; [reflexivity|]. rewrite !last_cons by discriminate. apply IH.
Qed.
Lemma next_ring h x l1 y l2 : ring h (x :: l1 ++ y :: l2) -> NoDup (x :: l1 ++ y :: l2) -> 
  segment_next h y = hd 0 l2 /\ segment_previous h y = last l1 0.
Proof.
  intros Q N. destruct (ring_at h x l1 y l2 Q) as (A1 & A2 & A3). unfold segment_next, segment_previous. rewrite A1, A2, A3. clear A1 A2 A3.
  inversion N as [|? ? X _]; subst. rewrite in_app_iff in X. split.
  - destruct l2 as [|z l2]; cbn [hd]; [rewrite Nat.eqb_refl; reflexivity|]. destruct (Nat.eqb_spec z x) as [->|]; [exfalso; apply X; right; right; left; reflexivity|reflexivity].
  - destruct l1 as [|z l1]; [cbn; rewrite Nat.eqb_refl; reflexivity|]. rewrite last_cons by discriminate.
    destruct (Nat.eqb_spec (last (z :: l1) 0) x) as [E|]; [exfalso; apply X; left; rewrite <- E; apply last_In; discriminate|reflexivity].
Qed.
Lemma next_single h x : ring h [x] -> segment_next h x = 0 /\ segment_previous h x = 0.
Proof. intros Q. destruct (ring_root h x [] Q) as (A1 & A2 & A3). unfold segment_next, segment_previous. rewrite A1, A2, A3. cbn. rewrite Nat.eqb_refl. auto. Qed.
Lemma walk_ring h x : forall l2 l1 n, ring h (x :: l1 ++ l2) -> NoDup (x :: l1 ++ l2) -> ~ In 0 l2 -> length l2 < n -> walk n h (hd 0 l2) = Some l2.
Proof.
  induction l2 as [|y l2 IH]; intros l1 n Q N Z L; (destruct n as [|n]; [lia|]); [reflexivity|]. cbn [walk hd].
  destruct (Nat.eqb_spec y NULL) as [->|_]; [exfalso; apply Z; left; reflexivity|].
  destruct (next_ring h x l1 y l2 Q N) as (-> & _). rewrite (IH (l1 ++ [y])); [reflexivity|rewrite <- app_assoc; exact Q|rewrite <- app_assoc; exact N|intros H; apply Z; right; exact H|cbn in L; lia].
Qed.
Lemma follower_mid y l1 l2 : NoDup (l1 ++ y :: l2) -> follower y (l1 ++ y :: l2) = hd 0 l2.
Proof.
  induction l1 as [|a l1 IH]; intros N.
  - cbn. destruct l2; [reflexivity|]. rewrite Nat.eqb_refl. reflexivity.
  - cbn [app] in *. inversion N as [|? ? X Y]; subst. specialize (IH Y). cbn [follower]. destruct (l1 ++ y :: l2) as [|b m] eqn:E; [destruct l1; discriminate|].
    destruct (Nat.eqb_spec a y) as [->|]; [|exact IH]. exfalso. apply X. rewrite <- E. apply in_or_app. right. left. reflexivity.
Qed.
Lemma last_rev_hd (l : list nat) : hd 0 (rev l) = last l 0.
Proof. induction l as [|x l IH] using rev_ind; [reflexivity|]. rewrite rev_app_distr, last_last. reflexivity. Qed.

Section rel_looks.
Context (fuel pp : nat) (sa : list nat) (F : length sa < fuel) (Z0 : ~ In 0 (pp :: sa)).
Set Default Proof Using "All".
Lemma rel_ring s r l : rel pp sa s r -> In l (lists r) -> ring (nodes s) l /\ NoDup l /\ ~ In 0 l /\ length l < fuel.
Proof.
  intros R I. assert (Fo : ring (nodes s) l). { destruct (links _ _ _ _ R) as (_ & Fo). rewrite Forall_forall in Fo. apply Fo. right. exact I. }
  split; [exact Fo|]. pose proof (rel_nodup _ _ _ _ R) as N. split; [apply in_split in I as (A & B & E); rewrite E in N; exact (nodup_part A _ B N)|].
  assert (S : forall x, In x l -> In x sa). { intros x Hx. destruct (rel_in _ _ _ _ R x) as (_ & _ & H); [apply in_concat; exists l; auto|exact H]. }
  split; [intros H; apply Z0; right; apply S, H|].
  assert (Len : length l <= length (concat (lists r))). { apply in_split in I as (A & B & ->). apply len_mid. }
  pose proof (Permutation_length (same _ _ _ _ R)) as P. rewrite app_length in P. lia.
Qed.
Lemma segments_ok s r x : rel pp sa s r -> is_record r x = true -> segments fuel (nodes s) x = Some (parts r x).
Proof.
  intros R Rx. destruct (rel_record _ _ _ _ R x Rx) as (I & _ & _). destruct (rel_ring s r _ R I) as (Q & N & Z & L). unfold segments.
  destruct (head_ring _ _ _ Q N) as (-> & _). apply (walk_ring _ x _ []); [exact Q|exact N|intros H; apply Z; right; exact H|cbn in L; lia].
Qed.
Lemma parts_segments s r x y : rel pp sa s r -> is_record r x = true -> In y (parts r x) -> is_segment r y = true.
Proof. intros R Rx H. destruct (rel_record _ _ _ _ R x Rx) as (I & _ & _). apply (shape _ _ _ _ R _ I), H. Qed.
Lemma neighbours s r x : rel pp sa s r -> is_segment r x = true ->
  segment_next (nodes s) x = follower x (tl (whole r x)) /\ segment_previous (nodes s) x = follower x (rev (tl (whole r x))).
Proof.
  intros R Sx. destruct (whole_list r x (rel_segment _ _ _ _ R x Sx)) as (I & Ix). destruct (rel_ring s r _ R I) as (Q & N & Z & L).
  destruct (shape _ _ _ _ R _ I) as (S1 & S2). destruct (whole r x) as [|p l]; [destruct Ix|]. cbn [hd tl] in *.
  destruct Ix as [->|Ix].
  - rewrite (S2 Sx) in *. cbn. apply next_single, Q.
  - apply in_split in Ix as (l1 & l2 & ->). destruct (next_ring _ _ _ _ _ Q N) as (-> & ->). inversion N as [|? ? _ N']; subst. split.
    + symmetry. apply follower_mid, N'.
    + rewrite rev_app_distr. cbn [rev]. rewrite <- app_assoc. cbn [app]. rewrite follower_mid; [symmetry; apply last_rev_hd|].
      apply (Permutation_NoDup (l := rev (l1 ++ x :: l2))); [|apply NoDup_rev, N']. rewrite rev_app_distr. cbn [rev]. rewrite <- app_assoc. reflexivity.
Qed.

(** * Vectors *)
Definition entry (s : state) (r : ref) (x : nat) : Z * Z := (data (nodes s x), match segment r x with Some c => length_of c | None => 0%Z end).
Lemma buffer_of_ok s r x c : rel pp sa s r -> segment r x = Some c -> buffer_of s x = Some (data (nodes s x), Buffer (length_of c) (field c)).
Proof. intros R H. destruct (used _ _ _ _ R x c H) as (_ & A2 & A3 & _). unfold buffer_of. destruct (Z.eqb_spec (data (nodes s x)) 0); [contradiction|]. rewrite A3. reflexivity. Qed.
Lemma octets_length s r x c : rel pp sa s r -> segment r x = Some c -> Z.of_nat (length (octets_of r x)) = length_of c.
Proof. intros R H. destruct (used _ _ _ _ R x c H) as (_ & _ & _ & A4). unfold octets_of. rewrite H, firstn_length. lia. Qed.
Lemma measure_ok s r : rel pp sa s r -> forall xs acc, (forall y, In y xs -> is_segment r y = true) -> (0 <= acc)%Z ->
  (acc + Z.of_nat (length (flat_map (octets_of r) xs)) < 18446744073709551616)%Z ->
  measure_loop s acc xs = Some (acc + Z.of_nat (length (flat_map (octets_of r) xs)))%Z.
Proof.
  intros R. induction xs as [|x xs IH]; intros acc S A B; [cbn; f_equal; lia|]. cbn [measure_loop flat_map] in *. rewrite app_length, Nat2Z.inj_add in *.
  destruct (proj1 (is_segment_true r x) (S x (or_introl eq_refl))) as (c & Hc). pose proof (octets_length s r x c R Hc) as OL. destruct (used _ _ _ _ R x c Hc) as (_ & A2 & _ & A4).
  destruct (Z.eqb_spec (data (nodes s x)) 0); [contradiction|]. unfold length_get. rewrite (buffer_of_ok s r x c R Hc). cbn [bind len].
  unfold u64. rewrite Z.mod_small by lia. rewrite IH; [f_equal; lia|intros y Hy; apply S; right; exact Hy|lia|lia].
Qed.
Lemma vectorize_ok s r : rel pp sa s r -> forall xs ii nn, (forall y, In y xs -> is_segment r y = true) -> (ii <= nn)%Z ->
  vectorize_loop s ii nn xs = Some (when (Z.leb (ii + Z.of_nat (length xs)) nn) (map (entry s r) xs)).
Proof.
  intros R. induction xs as [|x xs IH]; intros ii nn S L.
  - cbn. rewrite Z.add_0_r. destruct (Z.leb_spec ii nn); [reflexivity|lia].
  - cbn [vectorize_loop length map]. rewrite Nat2Z.inj_succ. destruct (Z.ltb_spec ii nn).
    + destruct (proj1 (is_segment_true r x) (S x (or_introl eq_refl))) as (c & Hc). rewrite (buffer_of_ok s r x c R Hc). cbn [bind len].
      rewrite IH; [|intros y Hy; apply S; right; exact Hy|lia]. cbn [bind]. replace (ii + 1 + Z.of_nat (length xs))%Z with (ii + Z.succ (Z.of_nat (length xs)))%Z by lia.
      unfold entry at 2. rewrite Hc. destruct (Z.leb _ nn); reflexivity.
    + destruct (Z.leb_spec (ii + Z.succ (Z.of_nat (length xs))) nn); [lia|reflexivity].
Qed.
Lemma gather_ok s r : rel pp sa s r -> forall xs, (forall y, In y xs -> is_segment r y = true) -> gather s (map (entry s r) xs) = Some (map (octets_of r) xs).
Proof.
  intros R. induction xs as [|x xs IH]; intros S; [reflexivity|]. cbn [gather map].
  destruct (proj1 (is_segment_true r x) (S x (or_introl eq_refl))) as (c & Hc). destruct (used _ _ _ _ R x c Hc) as (_ & A2 & A3 & A4).
  unfold area, entry at 1 2. rewrite Hc. cbn [fst snd]. rewrite A3. cbn [bind payload]. destruct (Z.leb_spec (length_of c) (Z.of_nat (length (field c)))); [|lia]. cbn [bind].
  rewrite IH by (intros y Hy; apply S; right; exact Hy). cbn [bind]. unfold octets_of at 2. rewrite Hc. unfold entry. rewrite Hc. reflexivity.
Qed.
Lemma scatter_ok : forall xs s r bs, rel pp sa s r -> (forall y, In y xs -> is_segment r y = true) ->
  exists s', scatter s (map (entry s r) xs) bs = Some s' /\ rel pp sa s' (Ref (pool r) (lists r) (fill (segment r) xs bs)).
Proof.
  induction xs as [|x xs IH]; intros s r bs R S; [exists s; split; [reflexivity|destruct r; exact R]|]. cbn [scatter map fill].
  destruct (proj1 (is_segment_true r x) (S x (or_introl eq_refl))) as (c & Hc). destruct (used _ _ _ _ R x c Hc) as (_ & A2 & A3 & A4).
  unfold entry at 1. rewrite Hc. rewrite A3. cbn [bind payload len]. set (k := min (Z.to_nat (length_of c)) (length bs)).
  assert (Hk : k <= length (field c)) by (unfold k; lia). destruct (Nat.leb_spec k (length (field c))); [|lia].
  set (c' := Content (length_of c) (firstn k bs ++ skipn k (field c))).
  assert (R1 := rel_content pp sa s r x c c' R Hc). cbn [length_of field c'] in R1.
  assert (B : (0 <= length_of c <= Z.of_nat (length (firstn k bs ++ skipn k (field c))))%Z).
  { rewrite app_length, firstn_length, skipn_length. unfold k in *. lia. }
  specialize (R1 B). set (s1 := set_buffer _ _ _) in *. set (r1 := Ref (pool r) (lists r) (set (segment r) x (Some c'))) in *.
  assert (E : map (entry s r) xs = map (entry s1 r1) xs).
  { apply map_ext. intros y. unfold entry. cbn [nodes segment s1 r1 set_buffer]. f_equal. unfold set. destruct (Nat.eqb_spec y x) as [->|]; [rewrite Hc; reflexivity|reflexivity]. }
  rewrite E. destruct (IH s1 r1 (skipn k bs) R1) as (s' & E' & R').
  - intros y Hy. specialize (S y (or_intror Hy)). unfold is_segment in *. cbn [segment r1]. unfold set. destruct (y =? x); [reflexivity|exact S].
  - exists s'. split; [exact E'|]. exact R'.
Qed.
Lemma count_ok : forall (l : list nat) n, (0 <= n)%Z -> (n + Z.of_nat (length l) < 18446744073709551616)%Z -> fold_left (fun nn _ => u64 (nn + 1)) l n = (n + Z.of_nat (length l))%Z.
Proof.
  induction l as [|x l IH]; intros n H L; [cbn; lia|]. cbn [fold_left length] in *. rewrite Nat2Z.inj_succ in *. rewrite IH; unfold u64; rewrite Z.mod_small; lia.
Qed.
Lemma enumerate_ok s r x : rel pp sa s r -> is_record r x = true -> (Z.of_nat (length (parts r x)) < 18446744073709551616)%Z ->
  enumerate fuel s x = Some (Z.of_nat (length (parts r x))).
Proof. intros R Rx L. unfold enumerate. rewrite (segments_ok s r x R Rx). cbn [bind]. rewrite count_ok by lia. reflexivity. Qed.
Lemma vector_ok s r x nn : rel pp sa s r -> is_record r x = true -> (0 <= nn)%Z ->
  vectorize fuel s x nn = Some (when (Z.leb (Z.of_nat (length (parts r x))) nn) (map (entry s r) (parts r x))).
Proof.
  intros R Rx L. unfold vectorize. rewrite (segments_ok s r x R Rx). cbn [bind]. rewrite (vectorize_ok s r R) by (eauto using parts_segments || exact L). rewrite Z.add_0_l. reflexivity.
Qed.
Lemma limits_ok r x : negb (Z.ltb 0 (Z.of_nat (length (parts r x))) && Z.leb (Z.of_nat (length (parts r x))) MAXIMUM) = negb (limits r x).
Proof.
  unfold limits, MAXIMUM. f_equal. destruct (Nat.leb_spec 1 (length (parts r x))), (Nat.leb_spec (length (parts r x)) 1024), (Z.ltb_spec 0 (Z.of_nat (length (parts r x)))), (Z.leb_spec (Z.of_nat (length (parts r x))) 1024); try reflexivity; lia.
Qed.
Lemma message_concat r x : concat (map (octets_of r) (parts r x)) = message r x.
Proof. unfold message. rewrite flat_map_concat_map. reflexivity. Qed.
End rel_looks.
