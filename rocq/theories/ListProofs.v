From Coq Require Import ZArith List Bool Arith Lia Permutation.
From Verif Require Import CUtil ListModel ListSpec.
Import ListNotations.
Local Open Scope nat_scope.

(** * Reading what was written *)
Lemma next_set_next h p v q : next (set_next h p v q) = if q =? p then v else next (h q).
Proof. unfold set_next, put. destruct (q =? p); reflexivity. Qed.
Lemma next_set_prev h p v q : next (set_prev h p v q) = next (h q).
Proof. unfold set_prev, put. destruct (Nat.eqb_spec q p) as [->|]; reflexivity. Qed.
Lemma next_set_root h p v q : next (set_root h p v q) = next (h q).
Proof. unfold set_root, put. destruct (Nat.eqb_spec q p) as [->|]; reflexivity. Qed.
Lemma prev_set_next h p v q : prev (set_next h p v q) = prev (h q).
Proof. unfold set_next, put. destruct (Nat.eqb_spec q p) as [->|]; reflexivity. Qed.
Lemma prev_set_prev h p v q : prev (set_prev h p v q) = if q =? p then v else prev (h q).
Proof. unfold set_prev, put. destruct (q =? p); reflexivity. Qed.
Lemma prev_set_root h p v q : prev (set_root h p v q) = prev (h q).
Proof. unfold set_root, put. destruct (Nat.eqb_spec q p) as [->|]; reflexivity. Qed.
Lemma root_set_next h p v q : root (set_next h p v q) = root (h q).
Proof. unfold set_next, put. destruct (Nat.eqb_spec q p) as [->|]; reflexivity. Qed.
Lemma root_set_prev h p v q : root (set_prev h p v q) = root (h q).
Proof. unfold set_prev, put. destruct (Nat.eqb_spec q p) as [->|]; reflexivity. Qed.
Lemma root_set_root h p v q : root (set_root h p v q) = if q =? p then v else root (h q).
Proof. unfold set_root, put. destruct (q =? p); reflexivity. Qed.
Lemma data_set_next h p v q : data (set_next h p v q) = data (h q).
Proof. unfold set_next, put. destruct (Nat.eqb_spec q p) as [->|]; reflexivity. Qed.
Lemma data_set_prev h p v q : data (set_prev h p v q) = data (h q).
Proof. unfold set_prev, put. destruct (Nat.eqb_spec q p) as [->|]; reflexivity. Qed.
Lemma data_set_root h p v q : data (set_root h p v q) = data (h q).
Proof. unfold set_root, put. destruct (Nat.eqb_spec q p) as [->|]; reflexivity. Qed.
Ltac rd := repeat first [rewrite next_set_next | rewrite next_set_prev | rewrite next_set_root |
  rewrite prev_set_next | rewrite prev_set_prev | rewrite prev_set_root |
  rewrite root_set_next | rewrite root_set_prev | rewrite root_set_root |
  rewrite data_set_next | rewrite data_set_prev | rewrite data_set_root].

(** * Lists *)
Lemma mem_In x r : mem x r = true <-> In x r.
Proof.
  unfold mem. rewrite existsb_exists. split.
  - intros (y & H & E). apply Nat.eqb_eq in E. subst. exact H.
  - intros H. exists x. split; [exact H|apply Nat.eqb_refl].
Qed.
Lemma mem_not x r : mem x r = false <-> ~ In x r.
Proof. rewrite <- mem_In. destruct (mem x r); split; congruence. Qed.
Lemma last_In (l : list nat) d : l <> [] -> In (last l d) l.
Proof. intros H. destruct (exists_last H) as (l' & a & ->). rewrite last_last. apply in_or_app. right. left. reflexivity. Qed.
Lemma hd_In (l : list nat) d : l <> [] -> In (hd d l) l.
Proof. destruct l; [congruence|left; reflexivity]. Qed.
Lemma last_app (a b : list nat) d : b <> [] -> last (a ++ b) d = last b d.
Proof. intros H. destruct (exists_last H) as (b' & x & ->). rewrite app_assoc, !last_last. reflexivity. Qed.
Lemma hd_app (a b : list nat) d : a <> [] -> hd d (a ++ b) = hd d a.
Proof. destruct a; [congruence|reflexivity]. Qed.
Lemma last_cons (x : nat) l d : l <> [] -> last (x :: l) d = last l d.
Proof. destruct l; [congruence|reflexivity]. Qed.

Lemma nodup_l (a b : list nat) : NoDup (a ++ b) -> NoDup a.
Proof.
  induction a as [|x a IH]; intros N; [constructor|]. cbn in N. inversion N; subst. constructor; [|apply IH; assumption].
  intros H. apply H1. apply in_or_app. left. exact H.
Qed.
Lemma nodup_r (a b : list nat) : NoDup (a ++ b) -> NoDup b.
Proof. induction a as [|x a IH]; intros N; [exact N|]. cbn in N. inversion N; subst. apply IH. assumption. Qed.

(** * Chains *)
Lemma chain_app h a b : a <> [] -> b <> [] ->
  chain h (a ++ b) <-> chain h a /\ adjacent h (last a 0) (hd 0 b) /\ chain h b.
Proof.
  intros Ha Hb. induction a as [|x a IH]; [congruence|]. destruct a as [|y a].
  - destruct b as [|z b]; [congruence|]. cbn. tauto.
  - specialize (IH ltac:(discriminate)). change ((x :: y :: a) ++ b) with (x :: (y :: a) ++ b).
    change (chain h (x :: (y :: a) ++ b)) with (adjacent h x y /\ chain h ((y :: a) ++ b)).
    change (chain h (x :: y :: a)) with (adjacent h x y /\ chain h (y :: a)).
    rewrite (last_cons x (y :: a)) by discriminate. tauto.
Qed.
Definition cyc (h : heap) (l : list nat) : Prop := chain h l /\ adjacent h (last l 0) (hd 0 l).
Lemma cyc_app h a b : a <> [] -> b <> [] ->
  cyc h (a ++ b) <-> chain h a /\ adjacent h (last a 0) (hd 0 b) /\ chain h b /\ adjacent h (last b 0) (hd 0 a).
Proof. intros Ha Hb. unfold cyc. rewrite chain_app, last_app, hd_app by assumption. tauto. Qed.
Lemma cyc_rot h a b : cyc h (a ++ b) -> cyc h (b ++ a).
Proof.
  destruct a as [|x a]; [rewrite app_nil_r; auto|]. destruct b as [|y b]; [rewrite app_nil_r; auto|].
  rewrite !cyc_app by discriminate. tauto.
Qed.
Lemma chain_same h h' l : NoDup l ->
  (forall y, In y l -> y <> last l 0 -> next (h' y) = next (h y)) ->
  (forall y, In y l -> y <> hd 0 l -> prev (h' y) = prev (h y)) -> chain h l -> chain h' l.
Proof.
  induction l as [|a l IH]; intros N H1 H2 C; [exact I|]. destruct l as [|b l]; [exact I|].
  destruct C as (A & C). inversion N as [|? ? Na Nl]; subst.
  split.
  - destruct A as (A1 & A2). split.
    + rewrite H1; [exact A1|left; reflexivity|]. rewrite last_cons by discriminate. intros E. apply Na. rewrite E. apply last_In. discriminate.
    + rewrite H2; [exact A2|right; left; reflexivity|]. cbn. intros ->. apply Na. left. reflexivity.
  - apply IH; [exact Nl| | |exact C].
    + intros y Hy Ny. apply H1; [right; exact Hy|]. rewrite last_cons by discriminate. exact Ny.
    + intros y Hy Ny. apply H2; [right; exact Hy|]. cbn. intros ->. contradiction.
Qed.
Lemma chain_ext h h' l : (forall y, In y l -> next (h' y) = next (h y) /\ prev (h' y) = prev (h y)) -> chain h l -> chain h' l.
Proof.
  induction l as [|a l IH]; intros H C; [exact I|]. destruct l as [|b l]; [exact I|]. destruct C as ((A1 & A2) & C).
  split; [|apply IH; [intros y Hy; apply H; right; exact Hy|exact C]].
  split; [rewrite (proj1 (H a (or_introl eq_refl))); exact A1|rewrite (proj2 (H b (or_intror (or_introl eq_refl)))); exact A2].
Qed.
Lemma cyc_ext h h' l : l <> [] -> (forall y, In y l -> next (h' y) = next (h y) /\ prev (h' y) = prev (h y)) -> cyc h l -> cyc h' l.
Proof.
  intros N H (C & A1 & A2). split; [apply (chain_ext h); assumption|].
  split; [rewrite (proj1 (H _ (last_In l 0 N))); exact A1|rewrite (proj2 (H _ (hd_In l 0 N))); exact A2].
Qed.

(** Taking a segment out of a circle. *)
Lemma unlink h h' seg m : seg <> [] -> m <> [] -> NoDup (seg ++ m) -> cyc h (seg ++ m) ->
  next (h' (last m 0)) = hd 0 m -> prev (h' (hd 0 m)) = last m 0 ->
  next (h' (last seg 0)) = hd 0 seg -> prev (h' (hd 0 seg)) = last seg 0 ->
  (forall y, y <> last m 0 -> y <> last seg 0 -> next (h' y) = next (h y)) ->
  (forall y, y <> hd 0 m -> y <> hd 0 seg -> prev (h' y) = prev (h y)) ->
  cyc h' seg /\ cyc h' m.
Proof.
  intros Hs Hm N C E1 E2 E3 E4 F1 F2. apply cyc_app in C; [|assumption|assumption]. destruct C as (C1 & _ & C2 & _).
  assert (D : forall y, In y seg -> In y m -> False).
  { intros y Y1 Y2. apply in_split in Y1 as (s1 & s2 & ->). rewrite <- app_assoc in N. cbn in N. apply NoDup_remove_2 in N. apply N. rewrite app_assoc. apply in_or_app. right. exact Y2. }
  split; split.
  - apply (chain_same h); [exact (nodup_l _ _ N)| | |exact C1].
    + intros y Hy Ny. apply F1; [|exact Ny]. intros ->. exact (D _ Hy (last_In m 0 Hm)).
    + intros y Hy Ny. apply F2; [|exact Ny]. intros ->. exact (D _ Hy (hd_In m 0 Hm)).
  - split; assumption.
  - apply (chain_same h); [exact (nodup_r _ _ N)| | |exact C2].
    + intros y Hy Ny. apply F1; [exact Ny|]. intros ->. exact (D _ (last_In seg 0 Hs) Hy).
    + intros y Hy Ny. apply F2; [exact Ny|]. intros ->. exact (D _ (hd_In seg 0 Hs) Hy).
  - split; assumption.
Qed.

(** Putting a circle into another after its node [t]. *)
Lemma link h h' t m seg : seg <> [] -> NoDup (t :: m ++ seg) -> cyc h (t :: m) -> cyc h seg ->
  let q := hd t m in
  next (h' t) = hd 0 seg -> prev (h' (hd 0 seg)) = t ->
  next (h' (last seg 0)) = q -> prev (h' q) = last seg 0 ->
  (forall y, y <> t -> y <> last seg 0 -> next (h' y) = next (h y)) ->
  (forall y, y <> q -> y <> hd 0 seg -> prev (h' y) = prev (h y)) ->
  cyc h' (t :: seg ++ m).
Proof.
  intros Hs N C Cs q E1 E2 E3 E4 F1 F2.
  assert (Nt : ~ In t m /\ ~ In t seg) by (inversion N as [|? ? X _]; subst; rewrite in_app_iff in X; tauto).
  assert (D : forall y, In y seg -> In y m -> False).
  { inversion N as [|? ? _ X]; subst. intros y Y1 Y2. apply in_split in Y2 as (s1 & s2 & ->). rewrite <- app_assoc in X. cbn in X. apply NoDup_remove_2 in X. apply X. rewrite app_assoc. apply in_or_app. right. exact Y1. }
  assert (Ns : NoDup seg) by (inversion N as [|? ? _ X]; subst; exact (nodup_r _ _ X)).
  assert (Nm : NoDup m) by (inversion N as [|? ? _ X]; subst; exact (nodup_l _ _ X)).
  assert (Qs : ~ In q seg) by (unfold q; destruct m as [|z m]; [exact (proj2 Nt)|cbn; intros Z; exact (D _ Z (or_introl eq_refl))]).
  assert (S' : chain h' seg).
  { apply (chain_same h); [exact Ns| | |exact (proj1 Cs)].
    - intros y Hy Ny. apply F1; [|exact Ny]. intros ->. exact (proj2 Nt Hy).
    - intros y Hy Ny. apply F2; [|exact Ny]. intros ->. exact (Qs Hy). }
  destruct m as [|z m].
  - rewrite app_nil_r. change (t :: seg) with ([t] ++ seg). apply cyc_app; [discriminate|exact Hs|].
    split; [exact I|]. split; [split; assumption|]. split; [exact S'|]. split; assumption.
  - change (t :: seg ++ z :: m) with ([t] ++ (seg ++ z :: m)). apply cyc_app; [discriminate|destruct seg; discriminate|].
    split; [exact I|]. rewrite hd_app by exact Hs. split; [split; assumption|].
    assert (C' := C). change (t :: z :: m) with ([t] ++ z :: m) in C'. apply cyc_app in C'; [|discriminate|discriminate]. destruct C' as (_ & _ & C2 & (A1 & A2)).
    split.
    + apply chain_app; [exact Hs|discriminate|]. split; [exact S'|]. split; [split; assumption|].
      apply (chain_same h); [exact Nm| | |exact C2].
      * intros y Hy Ny. apply F1; [intros ->; exact (proj1 Nt Hy)|]. intros ->. exact (D _ (last_In seg 0 Hs) Hy).
      * intros y Hy Ny. apply F2; [exact Ny|]. intros ->. exact (D _ (hd_In seg 0 Hs) Hy).
    + rewrite last_app by discriminate. cbn [hd] in *. split.
      * assert (L : In (last (z :: m) 0) (z :: m)) by (apply last_In; discriminate).
        rewrite F1; [exact A1| |]; intros E; rewrite E in L; [exact (proj1 Nt L)|exact (D _ (last_In seg 0 Hs) L)].
      * rewrite F2; [exact A2| |]; intros E; [apply (proj1 Nt); left; symmetry; exact E|].
        apply (proj2 Nt). rewrite E. apply hd_In, Hs.
Qed.

(** * Setting the root of a segment *)
Definition same_links (h h' : heap) : Prop := forall y, next (h' y) = next (h y) /\ prev (h' y) = prev (h y) /\ data (h' y) = data (h y).
Lemma reroot_loop_ok rt : forall seg fuel h x first, NoDup (x :: seg) -> chain h (x :: seg) -> ~ In first seg -> length seg < fuel ->
  exists h', reroot_loop fuel h x first (last (x :: seg) 0) rt = Some h' /\ same_links h h' /\
    forall y, root (h' y) = if mem y (x :: seg) then rt else root (h y).
Proof.
  induction seg as [|z seg IH]; intros fuel h x first N C F L; (destruct fuel as [|fuel]; [cbn in L; lia|]); cbn [reroot_loop].
  - cbn [last]. rewrite Nat.eqb_refl. eexists. split; [reflexivity|]. split; [intros y; rd; auto|].
    intros y. rd. cbn. destruct (y =? x); reflexivity.
  - rewrite (last_cons x (z :: seg)) by discriminate. inversion N as [|? ? Nx Nz]; subst. destruct C as ((A1 & A2) & C).
    assert (Lx : x <> last (z :: seg) 0) by (intros E; apply Nx; rewrite E; apply last_In; discriminate).
    destruct (Nat.eqb_spec x (last (z :: seg) 0)) as [E|_]; [contradiction|]. rd. rewrite A1.
    destruct (Nat.eqb_spec z first) as [E|_]; [exfalso; apply F; left; exact E|].
    destruct (IH fuel (set_root h x rt) z first Nz) as (h' & R & S & T).
    + apply (chain_ext h); [intros y _; rd; auto|exact C].
    + intros Z. apply F. right. exact Z.
    + cbn in L. lia.
    + exists h'. split; [exact R|]. split.
      * intros y. destruct (S y) as (S1 & S2 & S3). rewrite S1, S2, S3. rd. auto.
      * intros y. rewrite T. rd. change (mem y (x :: z :: seg)) with ((y =? x) || mem y (z :: seg)).
        destruct (mem y (z :: seg)); [rewrite orb_true_r; reflexivity|]. rewrite orb_false_r. reflexivity.
Qed.
Lemma reroot_range_ok rt seg fuel h : seg <> [] -> NoDup seg -> chain h seg -> length seg <= fuel ->
  exists h', reroot_range fuel h (hd 0 seg) (last seg 0) rt = Some h' /\ same_links h h' /\
    forall y, root (h' y) = if mem y seg then rt else root (h y).
Proof.
  destruct seg as [|x seg]; [congruence|]. intros _ N C L. apply reroot_loop_ok; [exact N|exact C| |cbn in L; lia].
  cbn. inversion N; assumption.
Qed.

(** * Representation *)
Definition rings (h : heap) (rs : list (list nat)) : Prop := Forall (ring h) rs.
Lemma ring_cyc h r : ring h r <-> r <> [] /\ cyc h r /\ Forall (fun x => root (h x) = hd 0 r) r.
Proof. unfold ring, cyc. tauto. Qed.
Lemma ring_frame h h' r : (forall y, In y r -> next (h' y) = next (h y) /\ prev (h' y) = prev (h y) /\ root (h' y) = root (h y)) -> ring h r -> ring h' r.
Proof.
  intros H R. apply ring_cyc in R as (N & C & F). apply ring_cyc. split; [exact N|].
  split; [apply (cyc_ext h); [exact N|intros y Hy; destruct (H y Hy) as (A & B & _); auto|exact C]|].
  rewrite Forall_forall in *. intros y Hy. destruct (H y Hy) as (_ & _ & A). rewrite A. apply F, Hy.
Qed.
Lemma rings_frame h h' rs : (forall y, In y (concat rs) -> next (h' y) = next (h y) /\ prev (h' y) = prev (h y) /\ root (h' y) = root (h y)) -> rings h rs -> rings h' rs.
Proof.
  unfold rings. rewrite !Forall_forall. intros H R r Hr. apply (ring_frame h); [|apply R, Hr].
  intros y Hy. apply H. apply in_concat. exists r. auto.
Qed.
Lemma concat_perm (a b : list (list nat)) : Permutation a b -> Permutation (concat a) (concat b).
Proof.
  induction 1; cbn; auto; [apply Permutation_app_head; assumption| |eapply perm_trans; eassumption].
  rewrite !app_assoc. apply Permutation_app_tail, Permutation_app_comm.
Qed.
Lemma represents_perm h a b : Permutation a b -> represents h a -> represents h b.
Proof.
  intros P (N & R). split; [apply (Permutation_NoDup (concat_perm _ _ P)), N|].
  rewrite Forall_forall in *. intros r Hr. apply R. apply (Permutation_in _ (Permutation_sym P)), Hr.
Qed.
Lemma represents_ext h h' rs : (forall y, next (h' y) = next (h y) /\ prev (h' y) = prev (h y) /\ root (h' y) = root (h y)) -> represents h rs -> represents h' rs.
Proof. intros H (N & R). split; [exact N|]. apply (rings_frame h); [intros y _; apply H|exact R]. Qed.

Lemma pick (x : nat) (rs : list (list nat)) : In x (concat rs) -> exists A l1 l2 B, rs = A ++ (l1 ++ x :: l2) :: B.
Proof.
  intros H. apply in_concat in H as (r & H1 & H2). apply in_split in H1 as (A & B & ->). apply in_split in H2 as (l1 & l2 & ->).
  exists A, l1, l2, B. reflexivity.
Qed.
Lemma nodup_mid (A : list (list nat)) r B : NoDup (concat (A ++ r :: B)) -> NoDup (concat (r :: A ++ B)).
Proof. apply Permutation_NoDup, concat_perm. symmetry. apply Permutation_middle. Qed.
Lemma nodup_disj (r : list nat) O x : NoDup (concat (r :: O)) -> In x r -> ~ In x (concat O).
Proof.
  cbn. intros N H1 H2. apply in_split in H1 as (a & b & ->). rewrite <- app_assoc in N. cbn in N. apply NoDup_remove_2 in N.
  apply N. apply in_or_app. right. apply in_or_app. right. exact H2.
Qed.
Lemma not_in_lists x (rs : list (list nat)) : ~ In x (concat rs) -> Forall (fun r => ~ In x r) rs.
Proof. intros H. apply Forall_forall. intros r Hr Hx. apply H. apply in_concat. exists r. auto. Qed.

(** * The abstract operations on a state in which a list is singled out *)
Lemma filter_all {A} (f : A -> bool) l : Forall (fun x => f x = true) l -> filter f l = l.
Proof. induction 1 as [|x l E _ IH]; [reflexivity|]. cbn. rewrite E, IH. reflexivity. Qed.
Lemma without_id x r : ~ In x r -> without x r = r.
Proof. intros H. apply filter_all. apply Forall_forall. intros y Hy. destruct (Nat.eqb_spec y x) as [->|]; [contradiction|reflexivity]. Qed.
Lemma without_mid x l1 l2 : NoDup (l1 ++ x :: l2) -> without x (l1 ++ x :: l2) = l1 ++ l2.
Proof.
  intros N. apply NoDup_remove_2 in N. rewrite in_app_iff in N. unfold without. rewrite filter_app. cbn. rewrite Nat.eqb_refl. cbn.
  f_equal; apply without_id; tauto.
Qed.
Definition ne (r : list nat) : list (list nat) := match r with [] => [] | _ => [r] end.
Lemma detach_id x rs : ~ In x (concat rs) -> Forall (fun r => r <> []) rs -> detach x rs = rs.
Proof.
  intros H N. unfold detach. rewrite (map_ext_in _ (fun r => r)).
  - rewrite map_id. apply filter_all. apply Forall_forall. intros r Hr. rewrite Forall_forall in N. specialize (N r Hr). destruct r; [congruence|reflexivity].
  - intros r Hr. apply without_id. intros Hx. apply H. apply in_concat. exists r. auto.
Qed.
Lemma detach_mid x A l1 l2 B : NoDup (concat (A ++ (l1 ++ x :: l2) :: B)) -> Forall (fun r => r <> []) (A ++ B) ->
  detach x (A ++ (l1 ++ x :: l2) :: B) = A ++ ne (l1 ++ l2) ++ B.
Proof.
  intros N E. pose proof (nodup_mid _ _ _ N) as N'. assert (X : ~ In x (concat (A ++ B))) by (apply (nodup_disj _ _ x N'), in_or_app; right; left; reflexivity).
  rewrite concat_app, in_app_iff in X. apply Forall_app in E as (E1 & E2).
  unfold detach. rewrite map_app, filter_app. cbn [map].
  change (filter nonempty (map (without x) A)) with (detach x A). rewrite (detach_id x A) by tauto. f_equal.
  cbn [filter]. rewrite without_mid by (cbn in N'; exact (nodup_l _ _ N')).
  change (filter nonempty (map (without x) B)) with (detach x B). rewrite (detach_id x B) by tauto.
  destruct (l1 ++ l2); reflexivity.
Qed.
Lemma place_id p l r : ~ In p r -> place p l r = r.
Proof.
  induction r as [|y r IH]; intros H; [reflexivity|]. unfold place. cbn. destruct (Nat.eqb_spec y p) as [->|]; [exfalso; apply H; left; reflexivity|].
  cbn. f_equal. apply IH. intros Z. apply H. right. exact Z.
Qed.
Lemma place_mid p l l1 l2 : NoDup (l1 ++ p :: l2) -> place p l (l1 ++ p :: l2) = l1 ++ p :: l ++ l2.
Proof.
  intros N. apply NoDup_remove_2 in N. rewrite in_app_iff in N. unfold place. rewrite flat_map_app. cbn. rewrite Nat.eqb_refl.
  change (flat_map (fun y => if y =? p then p :: l else [y]) l1) with (place p l l1).
  change (flat_map (fun y => if y =? p then p :: l else [y]) l2) with (place p l l2). rewrite !place_id by tauto. reflexivity.
Qed.
Lemma map_place_mid p l A l1 l2 B : NoDup (concat (A ++ (l1 ++ p :: l2) :: B)) ->
  map (place p l) (A ++ (l1 ++ p :: l2) :: B) = A ++ (l1 ++ p :: l ++ l2) :: B.
Proof.
  intros N. pose proof (nodup_mid _ _ _ N) as N'. assert (X : ~ In p (concat (A ++ B))) by (apply (nodup_disj _ _ p N'), in_or_app; right; left; reflexivity).
  rewrite concat_app, in_app_iff in X. rewrite map_app. cbn [map]. rewrite place_mid by (cbn in N'; exact (nodup_l _ _ N')).
  assert (Q : forall O, ~ In p (concat O) -> map (place p l) O = O).
  { intros O HO. rewrite (map_ext_in _ (fun r => r)); [apply map_id|]. intros r Hr. apply place_id. intros Hx. apply HO. apply in_concat. exists r. auto. }
  rewrite !Q by tauto. reflexivity.
Qed.
Lemma list_of_mid x A l1 l2 B : NoDup (concat (A ++ (l1 ++ x :: l2) :: B)) -> list_of x (A ++ (l1 ++ x :: l2) :: B) = l1 ++ x :: l2.
Proof.
  intros N. pose proof (nodup_mid _ _ _ N) as N'. assert (X : ~ In x (concat (A ++ B))) by (apply (nodup_disj _ _ x N'), in_or_app; right; left; reflexivity).
  rewrite concat_app, in_app_iff in X. clear N N'. unfold list_of. induction A as [|a A IH].
  - cbn [app find]. replace (mem x (l1 ++ x :: l2)) with true; [reflexivity|]. symmetry. apply mem_In, in_or_app. right. left. reflexivity.
  - cbn [app find]. cbn in X. rewrite in_app_iff in X. replace (mem x a) with false by (symmetry; apply mem_not; tauto). apply IH. tauto.
Qed.
Lemma others_mid x A l1 l2 B : NoDup (concat (A ++ (l1 ++ x :: l2) :: B)) -> others x (A ++ (l1 ++ x :: l2) :: B) = A ++ B.
Proof.
  intros N. pose proof (nodup_mid _ _ _ N) as N'. assert (X : ~ In x (concat (A ++ B))) by (apply (nodup_disj _ _ x N'), in_or_app; right; left; reflexivity).
  unfold others. rewrite filter_app. cbn [filter]. replace (mem x (l1 ++ x :: l2)) with true by (symmetry; apply mem_In, in_or_app; right; left; reflexivity).
  cbn [negb]. apply not_in_lists in X. apply Forall_app in X as (X1 & X2).
  rewrite !filter_all; [reflexivity| |]; apply Forall_forall; intros r Hr; rewrite Forall_forall in X1, X2; [specialize (X2 r Hr) as Y|specialize (X1 r Hr) as Y];
    apply mem_not in Y; rewrite Y; reflexivity.
Qed.
