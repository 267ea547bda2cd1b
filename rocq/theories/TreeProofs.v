(** Proofs about the red-black trees: the memory, contexts, and the pieces of the
    algorithms. *)

From Coq Require Import ZArith List Bool Lia Sorting.Permutation.
From Verif Require Import CUtil TreeModel TreeSpec.
Import ListNotations.
Local Open Scope Z_scope.

(** * The memory *)

Definition put (s : st) (p : Z) (n : node) : st := St (fun x => if x =? p then Some n else nodes s x) (roots s).
Definition putr (s : st) (r v : Z) : st := St (nodes s) (fun x => if x =? r then v else roots s x).

Lemma put_same s p n : nodes (put s p n) p = Some n.
Proof. cbn. rewrite Z.eqb_refl. reflexivity. Qed.
Lemma put_other s p n q : q <> p -> nodes (put s p n) q = nodes s q.
Proof. intros H. cbn. destruct (Z.eqb_spec q p); [contradiction|reflexivity]. Qed.
Lemma get_eq {A} (f : node -> A) s p n : nodes s p = Some n -> get f s p = Some (f n).
Proof. unfold get. intros ->. reflexivity. Qed.
Lemma change_eq f s p n : nodes s p = Some n -> change f s p = Some (put s p (f n)).
Proof. unfold change. intros ->. reflexivity. Qed.
Lemma store_eq s r v : r <> 0 -> store_root s r v = Some (putr s r v).
Proof. unfold store_root. intros H. destruct (Z.eqb_spec r 0); [contradiction|reflexivity]. Qed.
Lemma load_eq s r : r <> 0 -> load_root s r = Some (roots s r).
Proof. unfold load_root. intros H. destruct (Z.eqb_spec r 0); [contradiction|reflexivity]. Qed.

(** Nothing but the given nodes and the given root changed, and no payload did. *)
Record only (L : list Z) (r : Z) (s s' : st) : Prop := Only {
  O_nodes : forall p, ~ In p L -> nodes s' p = nodes s p;
  O_roots : forall q, q <> r -> roots s' q = roots s q;
  O_pays : forall p, get pay s' p = get pay s p
}.

Lemma only_refl L r s : only L r s s.
Proof. constructor; reflexivity. Qed.

Lemma only_trans L r s s1 s2 : only L r s s1 -> only L r s1 s2 -> only L r s s2.
Proof.
  intros [A1 B1 C1] [A2 B2 C2]. constructor.
  - intros p H. rewrite (A2 p H). apply A1, H.
  - intros q H. rewrite (B2 q H). apply B1, H.
  - intros p. rewrite (C2 p). apply C1.
Qed.

Lemma only_sub L L' r s s' : (forall x, In x L -> In x L') -> only L r s s' -> only L' r s s'.
Proof. intros S [A B C]. constructor; auto. Qed.

Lemma only_put L r s p n n' : nodes s p = Some n -> pay n' = pay n -> In p L -> only L r s (put s p n').
Proof.
  intros E1 E2 I. constructor.
  - intros q H. apply put_other. intros ->. contradiction.
  - reflexivity.
  - intros q. unfold get. destruct (Z.eq_dec q p) as [->|NE]; [rewrite put_same, E1, E2; reflexivity|rewrite put_other by exact NE; reflexivity].
Qed.

Lemma only_putr L r s v : only L r s (putr s r v).
Proof. constructor; try reflexivity. intros q H. cbn. destruct (Z.eqb_spec q r); [contradiction|reflexivity]. Qed.

(** * Contexts *)

Inductive frame := FL (c : bool) (x : Z) (r : tree) | FR (c : bool) (l : tree) (x : Z).
Definition ctx := list frame.

Definition ctop (k : ctx) : Z := match k with [] => 0 | FL _ x _ :: _ => x | FR _ _ x :: _ => x end.
Fixpoint plug (k : ctx) (t : tree) : tree :=
  match k with [] => t | FL c x r :: k => plug k (N c t x r) | FR c l x :: k => plug k (N c l x t) end.
Fixpoint cptrs (k : ctx) : list Z :=
  match k with [] => [] | FL c x r :: k => x :: inorder r ++ cptrs k | FR c l x :: k => x :: inorder l ++ cptrs k end.
Fixpoint pre (k : ctx) : list Z :=
  match k with [] => [] | FL _ _ _ :: k => pre k | FR _ l x :: k => pre k ++ inorder l ++ [x] end.
Fixpoint post (k : ctx) : list Z :=
  match k with [] => [] | FL _ x r :: k => x :: inorder r ++ post k | FR _ _ _ :: k => post k end.

Lemma inorder_plug k : forall t, inorder (plug k t) = pre k ++ inorder t ++ post k.
Proof.
  induction k as [|[c x r|c l x] k IH]; intros t; cbn [plug pre post].
  - rewrite app_nil_r. reflexivity.
  - rewrite IH. cbn [inorder]. rewrite <- app_assoc. reflexivity.
  - rewrite IH. cbn [inorder]. rewrite <- !app_assoc. reflexivity.
Qed.

(** The memory holds the context of a tree at [p], in the tree of the root [r]. *)
Fixpoint ctx_at (s : st) (r p : Z) (k : ctx) : Prop :=
  match k with
  | [] => r <> 0 /\ roots s r = p
  | FL c x rt :: k =>
    x <> 0 /\ (exists v, nodes s x = Some (Node (ctop k) p (top rt) r c false v)) /\ tree_at s r x rt /\ ctx_at s r x k
  | FR c lt x :: k =>
    x <> 0 /\ (exists v, nodes s x = Some (Node (ctop k) (top lt) p r c false v)) /\ tree_at s r x lt /\ ctx_at s r x k
  end.

(** A tree in its context. *)
Record whole (s : st) (r : Z) (k : ctx) (t : tree) : Prop := Whole {
  W_tree : tree_at s r (ctop k) t;
  W_ctx : ctx_at s r (top t) k;
  W_nodup : NoDup (inorder t ++ cptrs k)
}.

Lemma down_left s r k c l x rt : whole s r k (N c l x rt) -> whole s r (FL c x rt :: k) l.
Proof.
  intros [(A & V & L & R) C ND]. constructor; cbn; [exact L|auto|].
  cbn in ND. rewrite <- app_assoc in ND. exact ND.
Qed.
Lemma up_left s r k c l x rt : whole s r (FL c x rt :: k) l -> whole s r k (N c l x rt).
Proof.
  intros [L (A & V & R & C) ND]. constructor; cbn; [auto|exact C|].
  cbn in ND. rewrite <- app_assoc. exact ND.
Qed.

Lemma perm_right (l r : list Z) x k : Permutation ((l ++ x :: r) ++ k) (r ++ x :: l ++ k).
Proof.
  rewrite <- app_assoc. cbn. rewrite <- Permutation_middle.
  transitivity (x :: (r ++ l ++ k)); [apply perm_skip; rewrite !app_assoc; apply Permutation_app_tail, Permutation_app_comm|].
  apply Permutation_middle.
Qed.
Lemma down_right s r k c l x rt : whole s r k (N c l x rt) -> whole s r (FR c l x :: k) rt.
Proof.
  intros [(A & V & L & R) C ND]. constructor; cbn; [exact R|auto|].
  cbn in ND. exact (Permutation_NoDup (perm_right _ _ _ _) ND).
Qed.
Lemma up_right s r k c l x rt : whole s r (FR c l x :: k) rt -> whole s r k (N c l x rt).
Proof.
  intros [R (A & V & L & C) ND]. constructor; cbn; [auto|exact C|].
  cbn in ND. exact (Permutation_NoDup (Permutation_sym (perm_right _ _ _ _)) ND).
Qed.

Lemma whole_plug s r k : forall t, whole s r k t <-> whole s r [] (plug k t).
Proof.
  induction k as [|[c x rt|c l x] k IH]; intros t; cbn [plug]; [reflexivity| |]; rewrite <- IH.
  - split; [apply up_left|apply down_left].
  - split; [apply up_right|apply down_right].
Qed.

Lemma whole_holds s r t : r <> 0 -> (whole s r [] t <-> holds s r t).
Proof.
  intros R. split.
  - intros [A (_ & C) ND]. cbn in ND. rewrite app_nil_r in ND. repeat split; assumption.
  - intros (C & A & ND). constructor; [exact A|split; assumption|cbn; rewrite app_nil_r; exact ND].
Qed.

(** * Counting, to tell nodes apart *)

Notation cnt q l := (count_occ Z.eq_dec l q).

Lemma cnt_cons q x l : cnt q (x :: l) = ((if Z.eq_dec x q then 1 else 0) + cnt q l)%nat.
Proof. cbn. destruct (Z.eq_dec x q); reflexivity. Qed.

Lemma nodup_cnt l : NoDup l <-> forall q, (cnt q l <= 1)%nat.
Proof. apply NoDup_count_occ. Qed.

Lemma in_cnt q l : In q l <-> (1 <= cnt q l)%nat.
Proof. rewrite (count_occ_In Z.eq_dec). lia. Qed.

Lemma not_in_cnt q l : ~ In q l <-> cnt q l = 0%nat.
Proof. rewrite in_cnt. lia. Qed.

Lemma eq_dec_refl q : (if Z.eq_dec q q then 1 else 0)%nat = 1%nat.
Proof. destruct (Z.eq_dec q q); [reflexivity|contradiction]. Qed.

Lemma top_cnt t q : top t = q -> t <> E -> (1 <= cnt q (inorder t))%nat.
Proof. destruct t; [contradiction|]. cbn. intros -> _. rewrite count_occ_app, cnt_cons, eq_dec_refl. lia. Qed.
Lemma ctop_cnt k q : ctop k = q -> k <> [] -> (1 <= cnt q (cptrs k))%nat.
Proof. destruct k as [|[]]; [contradiction| |]; cbn [ctop cptrs]; intros -> _; rewrite cnt_cons, eq_dec_refl; lia. Qed.

(** [z] is in two places at once. *)
Ltac count z :=
  exfalso;
  repeat match goal with H : In _ _ |- _ => apply in_cnt in H end;
  repeat match goal with H : ~ In _ _ |- _ => apply not_in_cnt in H end;
  repeat match goal with H : NoDup _ |- _ => apply nodup_cnt in H; [] || (rewrite nodup_cnt in H) end;
  repeat match goal with H : forall q : Z, (cnt q _ <= 1)%nat |- _ => specialize (H z) end;
  cbn [inorder cptrs] in *;
  repeat first [rewrite count_occ_app in * | rewrite cnt_cons in * | rewrite eq_dec_refl in *];
  lia.

Lemma tree_agree s s' r t : forall par, (forall q, In q (inorder t) -> nodes s' q = nodes s q) ->
  tree_at s r par t -> tree_at s' r par t.
Proof.
  induction t as [|c l IHl x rt IHr]; intros par A; [auto|]. cbn. intros (X & (v & V) & L & R).
  split; [exact X|]. split; [exists v; rewrite A; [exact V|apply in_or_app; right; left; reflexivity]|].
  split; [apply IHl; [|exact L]|apply IHr; [|exact R]]; intros q Q; apply A, in_or_app; cbn; auto.
Qed.

Lemma ctx_agree s s' r k : forall p, (forall q, In q (cptrs k) -> nodes s' q = nodes s q) -> roots s' r = roots s r ->
  ctx_at s r p k -> ctx_at s' r p k.
Proof.
  induction k as [|[c x rt|c l x] k IH]; intros p A B; cbn.
  - intros (C & D). split; [exact C|congruence].
  - intros (X & (v & V) & T & K). split; [exact X|]. split; [exists v; rewrite A by (left; reflexivity); exact V|].
    split; [eapply tree_agree; [|exact T]|apply IH; [|exact B|exact K]]; intros q Q; apply A; right; apply in_or_app; auto.
  - intros (X & (v & V) & T & K). split; [exact X|]. split; [exists v; rewrite A by (left; reflexivity); exact V|].
    split; [eapply tree_agree; [|exact T]|apply IH; [|exact B|exact K]]; intros q Q; apply A; right; apply in_or_app; auto.
Qed.

Lemma tree_zero s r par t : tree_at s r par t -> ~ In 0 (inorder t).
Proof.
  revert par. induction t as [|c l IHl x rt IHr]; intros par; [auto|]. cbn. intros (X & _ & L & R) I.
  apply in_app_or in I as [I|[I|I]]; [exact (IHl _ L I)|contradiction|exact (IHr _ R I)].
Qed.
Lemma top_zero s r par t : tree_at s r par t -> top t = 0 -> t = E.
Proof. destruct t; [auto|]. cbn. tauto. Qed.

(** * The pieces of the algorithms *)

(** Setting the parent of a subtree that may be a leaf. *)
Lemma reparent s r par t v : tree_at s r par t -> NoDup (inorder t) ->
  exists s', (if negb (isleaf (top t)) then set_parent s (top t) v else Some s) = Some s' /\
    tree_at s' r v t /\ (forall q, q <> top t \/ t = E -> nodes s' q = nodes s q) /\ roots s' = roots s /\
    (forall L rr, (t <> E -> In (top t) L) -> only L rr s s').
Proof.
  intros T ND. unfold isleaf. destruct t as [|c l x rt]; cbn [top].
  - exists s. cbn. repeat split; auto.
  - destruct T as (X & (p & V) & L & R). destruct (Z.eqb_spec x 0); [contradiction|]. cbn [negb].
    unfold set_parent. rewrite (change_eq _ _ _ _ V). eexists. split; [reflexivity|].
    split; [|split; [|split]].
    + cbn [tree_at]. split; [exact X|]. split; [exists p; rewrite put_same; reflexivity|].
      split; [eapply tree_agree; [|exact L]|eapply tree_agree; [|exact R]]; intros q Q; apply put_other; intros ->; count x.
    + intros q [Q|Q]; [apply put_other; exact Q|discriminate].
    + reflexivity.
    + intros LL rr I. eapply only_put; [exact V|reflexivity|apply I; discriminate].
Qed.

(** Directing the link above a context to another tree. *)
Definition relinks (f : st -> option st) (s : st) (r p q : Z) (k : ctx) : Prop :=
  exists s', f s = Some s' /\ ctx_at s' r q k /\ (forall z, z <> ctop k \/ k = [] -> nodes s' z = nodes s z) /\
    (k <> [] -> roots s' = roots s) /\ (forall L, (k <> [] -> In (ctop k) L) -> only L r s s').

Lemma ctx_child s r p k : ctx_at s r p k -> NoDup (cptrs k) -> p <> 0 -> ~ In p (cptrs k) ->
  match k with
  | [] => True
  | FL _ x rt :: k' => get left s x = Some p /\ get right s x = Some (top rt) /\ top rt <> p /\ x <> 0
  | FR _ lt x :: k' => get left s x = Some (top lt) /\ get right s x = Some p /\ top lt <> p /\ x <> 0
  end.
Proof.
  intros C ND P NI. destruct k as [|[c x rt|c lt x] k]; [auto| |]; cbn in C; destruct C as (X & (v & V) & T & K);
    rewrite !(get_eq _ _ _ _ V); cbn [left right]; (split; [reflexivity|]); (split; [reflexivity|]); (split; [|exact X]).
  - intros H. destruct rt; [cbn in H; congruence|]. cbn in H. subst. apply NI. right. apply in_or_app. left. apply in_or_app. right. left. reflexivity.
  - intros H. destruct lt; [cbn in H; congruence|]. cbn in H. subst. apply NI. right. apply in_or_app. left. apply in_or_app. right. left. reflexivity.
Qed.

Lemma relink_left s r q k c x rt : ctx_at s r q (FL c x rt :: k) -> NoDup (cptrs (FL c x rt :: k)) -> forall p,
  relinks (fun s => set_left s x p) s r q p (FL c x rt :: k).
Proof.
  intros (X & (v & V) & T & K) ND p. unfold relinks, set_left. rewrite (change_eq _ _ _ _ V). eexists. split; [reflexivity|].
  split; [|split; [|split]].
  - cbn [ctx_at]. split; [exact X|]. split; [exists v; rewrite put_same; reflexivity|].
    split; [eapply tree_agree; [|exact T]|apply (ctx_agree s); [|reflexivity|exact K]]; intros z Z; apply put_other; intros ->; count x.
  - intros z [Z|Z]; [apply put_other; exact Z|discriminate].
  - reflexivity.
  - intros L I. eapply only_put; [exact V|reflexivity|apply I; discriminate].
Qed.
Lemma relink_right s r q k c x lt : ctx_at s r q (FR c lt x :: k) -> NoDup (cptrs (FR c lt x :: k)) -> forall p,
  relinks (fun s => set_right s x p) s r q p (FR c lt x :: k).
Proof.
  intros (X & (v & V) & T & K) ND p. unfold relinks, set_right. rewrite (change_eq _ _ _ _ V). eexists. split; [reflexivity|].
  split; [|split; [|split]].
  - cbn [ctx_at]. split; [exact X|]. split; [exists v; rewrite put_same; reflexivity|].
    split; [eapply tree_agree; [|exact T]|apply (ctx_agree s); [|reflexivity|exact K]]; intros z Z; apply put_other; intros ->; count x.
  - intros z [Z|Z]; [apply put_other; exact Z|discriminate].
  - reflexivity.
  - intros L I. eapply only_put; [exact V|reflexivity|apply I; discriminate].
Qed.
Lemma relink_root s r q : ctx_at s r q [] -> forall p, relinks (fun s => store_root s r p) s r q p [].
Proof.
  intros (R & C) p. unfold relinks. rewrite (store_eq _ _ _ R). eexists. split; [reflexivity|].
  split; [split; [exact R|cbn; rewrite Z.eqb_refl; reflexivity]|]. split; [reflexivity|]. split; [contradiction|].
  intros L _. apply only_putr.
Qed.

(** The form in which the algorithms do it: any way of writing the test. *)
Definition link_lr (nodep : Z) (parentp rootp newp : Z) (err : Z) (s : st) : option st :=
  if isleaf parentp then store_root s rootp newp
  else let* pl := get left s parentp in
    if nodep =? pl then set_left s parentp newp
    else let* pr := get right s parentp in
      if nodep =? pr then set_right s parentp newp else set_error s err.
Definition link_rl (nodep : Z) (parentp rootp newp : Z) (err : Z) (s : st) : option st :=
  if isleaf parentp then store_root s rootp newp
  else let* pr := get right s parentp in
    if nodep =? pr then set_right s parentp newp
    else let* pl := get left s parentp in
      if nodep =? pl then set_left s parentp newp else set_error s err.

Lemma link_ok s r p k q err : ctx_at s r p k -> NoDup (cptrs k) -> p <> 0 -> ~ In p (cptrs k) ->
  relinks (link_lr p (ctop k) r q err) s r p q k /\ relinks (link_rl p (ctop k) r q err) s r p q k.
Proof.
  intros C ND P NI. pose proof (ctx_child s r p k C ND P NI) as H. unfold relinks, link_lr, link_rl, isleaf.
  destruct k as [|[c x rt|c lt x] k]; cbn [ctop].
  - cbn [Z.eqb]. split; exact (relink_root s r p C q).
  - destruct H as (H1 & H2 & H3 & H4). destruct (Z.eqb_spec x 0); [contradiction|]. rewrite H1, H2. cbn [bind].
    rewrite Z.eqb_refl. destruct (Z.eqb_spec p (top rt)); [congruence|]. split; exact (relink_left s r p k c x rt C ND q).
  - destruct H as (H1 & H2 & H3 & H4). destruct (Z.eqb_spec x 0); [contradiction|]. rewrite H1, H2. cbn [bind].
    rewrite Z.eqb_refl. destruct (Z.eqb_spec p (top lt)); [congruence|]. split; exact (relink_right s r p k c x lt C ND q).
Qed.
