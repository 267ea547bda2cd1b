From Coq Require Import ZArith List Bool Arith Lia Permutation.
From Verif Require Import CInt CUtil ListModel ListSpec ListProofs ListProofs2 ListProofs3 ListProofs4 WellModel WellProofs PoolModel PoolSpec PoolProofs PoolProofs2.
Import ListNotations.
Local Open Scope nat_scope.

Definition mk (e : nat * Z) : pool := let '(p, size) := e in Pool p size [].
Lemma rings_start ps own : concat (rings (start ps own)) = map fst ps ++ own.
Proof.
  unfold rings, start. cbn [pools lists]. rewrite concat_app, concat_single. f_equal. induction ps as [|(p, z) ps IH]; [reflexivity|]. cbn in *. rewrite IH. reflexivity.
Qed.
Lemma init_pools own : forall ps done h, NoDup (map fst (done ++ ps) ++ own) -> Forall (fun e => 0 <= snd e /\ snd e + 39 < 2 ^ 64)%Z ps ->
  pinv h (start done own) -> pinv (fold_left (fun h '(p, size) => pool_init h p size) ps h) (start (done ++ ps) own).
Proof.
  induction ps as [|(p, z) ps IH]; intros done h N F V; [rewrite app_nil_r; exact V|]. cbn [fold_left].
  replace (done ++ (p, z) :: ps) with ((done ++ [(p, z)]) ++ ps) in * by (rewrite <- app_assoc; reflexivity).
  apply IH; [exact N|exact (Forall_inv_tail F)|]. apply Forall_inv in F as (Z1 & Z2). cbn in Z1, Z2. pose proof V as (R & FP & FO & NO).
  assert (NI : ~ In p (concat (rings (start done own)))).
  { rewrite rings_start. rewrite !map_app in N. cbn in N. rewrite <- !app_assoc in N. cbn in N. apply NoDup_remove_2 in N. intros C. apply N. rewrite !in_app_iff in *. tauto. }
  unfold pool_init. rewrite pool_allocation_ok by assumption. set (v := (8 * ((32 + z + 7) / 8))%Z) in *.
  pose proof (datainit_new h p v _ R NI) as R1.
  assert (DT : forall y, data (datainit h p v y) = if y =? p then v else data (h y)) by (intros y; destruct (datainit_fields h p v y) as (_ & _ & _ & D); exact D).
  split; [|split; [|split; [constructor|constructor]]].
  - refine (represents_perm _ _ _ _ R1). unfold rings, start. cbn [pools lists]. rewrite !map_app. cbn [map]. rewrite <- app_assoc. cbn [app]. apply (Permutation_middle (map rg (map _ done))).
  - unfold start. cbn [pools]. rewrite map_app. apply Forall_app. split.
    + apply Forall_forall. intros k K. unfold start in FP. cbn [pools] in FP. destruct (proj1 (Forall_forall _ _) FP k K) as (P1 & P2 & P3 & P4). rewrite DT. destruct (Nat.eqb_spec (name k) p) as [C|C].
      * exfalso. apply NI. unfold rings, start. cbn [pools lists]. rewrite concat_app. apply in_or_app. left. apply in_concat. exists (rg k). split; [apply in_map, K|left; exact C].
      * split; [exact P1|]. split; [exact P2|]. split; [exact P3|]. apply in_map_iff in K as ((p', z') & <- & _). constructor.
    + constructor; [|constructor]. cbn [name bytes queue]. rewrite DT, Nat.eqb_refl. split; [reflexivity|]. split; [exact Z1|]. split; [exact Z2|constructor].
Qed.
Lemma start_ok h ps own : NoDup (map fst ps ++ own) -> Forall (fun e => 0 <= snd e /\ snd e + 39 < 2 ^ 64)%Z ps -> pinv (pools_init h ps own) (start ps own).
Proof.
  intros N F. apply (init_pools own ps []); [exact N|exact F|]. split; [|split; [constructor|split; [constructor|constructor]]]. unfold rings, start. cbn [pools lists map app]. apply init_all_ok. exact (nodup_r _ _ N).
Qed.

Lemma p_run_snoc : forall ops s s1 rs x s2 r, p_run s ops = Some (s1, rs) -> p_step s1 x = Some (s2, r) -> p_run s (ops ++ [x]) = Some (s2, rs ++ [r]).
Proof.
  induction ops as [|a ops IH]; intros s s1 rs x s2 r E1 E2; cbn [p_run app] in *.
  - injection E1 as -> <-. rewrite E2. reflexivity.
  - destruct (p_step s a) as [(s', r')|]; [|discriminate]. destruct (p_run s' ops) as [(s'', rs')|] eqn:ER; [|discriminate]. injection E1 as -> <-. rewrite (IH _ _ _ _ _ _ ER E2). reflexivity.
Qed.

(** Every object is in one place. *)
Lemma pinv_places h s : pinv h s -> NoDup (nodes s) /\ NoDup (map fst (out s)) /\ (forall x p, In (x, p) (out s) -> In x (concat (lists s)) /\ forall k, In k (pools s) -> ~ In x (queue k)).
Proof.
  intros (R & FP & FO & N). split; [rewrite nodes_rings; exact (proj1 R)|]. split; [exact N|]. intros x p I. destruct (proj1 (Forall_forall _ _) FO _ I) as (_ & O2 & _). split; [exact O2|].
  intros k K C. apply (disjoint_parts s h x R); [|exact O2]. apply in_concat. exists (rg k). split; [apply in_map, K|right; exact C].
Qed.
Lemma p_step_names s o s' r : p_step s o = Some (s', r) -> map name (pools s') = map name (pools s).
Proof.
  assert (W : forall p q, map name (with_queue p q s) = map name (pools s)) by (intros p q; unfold with_queue; rewrite map_map; apply map_ext; intros k; destruct (Nat.eqb_spec (name k) p); [symmetry; assumption|reflexivity]).
  destruct o as [p m|x|o|p]; cbn [p_step].
  - destruct (pool_of p s) as [k|]; [|discriminate]. destruct (queue k); [destruct (m =? 0); [|destruct (mem m (nodes s)); [discriminate|]]|]; intros E; injection E as <- <-; cbn [pools]; auto.
  - destruct (return_to x (out s)); [|discriminate]. destruct (pool_of n s); [|discriminate]. intros E; injection E as <- <-; cbn [pools]; auto.
  - destruct (forallb _ _); [|discriminate]. destruct (s_step (lists s) o). intros E; injection E as <- <-; cbn [pools]; auto.
  - destruct (pool_of p s); [|discriminate]. intros E; injection E as <- <-; cbn [pools]; auto.
Qed.
Lemma p_run_names : forall ops s s' rs, p_run s ops = Some (s', rs) -> map name (pools s') = map name (pools s).
Proof.
  induction ops as [|o ops IH]; intros s s' rs E; cbn [p_run] in E; [injection E as <- <-; reflexivity|]. destruct (p_step s o) as [(s1, r)|] eqn:ES; [|discriminate]. destruct (p_run s1 ops) as [(s2, rs2)|] eqn:ER; [|discriminate].
  injection E as <- <-. rewrite (IH _ _ _ ER). eapply p_step_names, ES.
Qed.
Lemma pool_of_in s p : In p (map name (pools s)) -> exists k, pool_of p s = Some k.
Proof.
  unfold pool_of. induction (pools s) as [|k ps IH]; [intros []|]. cbn. intros I. destruct (Nat.eqb_spec (name k) p); [eauto|]. destruct I as [|I]; [contradiction|auto].
Qed.
