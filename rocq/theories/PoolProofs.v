(** Proofs about object pools. *)

From Coq Require Import ZArith List Bool Arith Lia Permutation.
From Verif Require Import CInt CUtil MemoryModel MemorySpec MemoryProofs ListModel ListSpec ListProofs ListProofs2 ListProofs3 ListProofs4 ListProofs5 ListProofs6 WellModel WellProofs PoolModel PoolSpec.
Import ListNotations.
Local Open Scope nat_scope.

Definition rg (k : pool) : list nat := name k :: queue k.
Definition rings (s : state) : list (list nat) := map rg (pools s) ++ lists s.

Lemma nodes_rings s : nodes s = concat (rings s).
Proof. unfold nodes, rings. rewrite concat_app. reflexivity. Qed.

Definition owns (h : heap) (p : nat) (x : nat) : Prop := data (h x) = Z.of_nat p.
Definition pinv (h : heap) (s : state) : Prop :=
  represents h (rings s) /\
  Forall (fun k => data (h (name k)) = need k /\ (0 <= bytes k)%Z /\ (bytes k + 39 < 2 ^ 64)%Z /\ Forall (owns h (name k)) (queue k)) (pools s) /\
  Forall (fun e => owns h (snd e) (fst e) /\ In (fst e) (concat (lists s)) /\ In (snd e) (map name (pools s))) (out s) /\
  NoDup (map fst (out s)).

(** The size. *)
Lemma pool_allocation_ok size : (0 <= size)%Z -> (size + 39 < 2 ^ 64)%Z -> pool_allocation size = (8 * ((32 + size + 7) / 8))%Z.
Proof.
  intros A B. unfold pool_allocation, object_size, payload_unit.
  assert (E1 : u64 (32 + size) = (32 + size)%Z) by (unfold u64; apply Z.mod_small; lia). rewrite E1.
  assert (E2 : u64 (u64 (32 + size + 8) - 1) = (32 + size + 7)%Z) by (unfold u64; rewrite Zminus_mod_idemp_l, Z.mod_small; lia). rewrite E2.
  change (u64 (8 - 1)) with (2 ^ 3 - 1)%Z. rewrite mask_down by lia. reflexivity.
Qed.

(** The pool that has a name. *)
Lemma names_sub : forall ps (l : list (list nat)), NoDup (concat (map rg ps ++ l)) -> NoDup (map name ps).
Proof.
  intros ps l N. rewrite concat_app in N. apply nodup_l in N. induction ps as [|k ps IH]; [constructor|]. cbn in *. apply NoDup_cons_iff in N as (A & N). constructor.
  - intros C. apply A, in_or_app. right. apply in_map_iff in C as (k' & <- & C). apply in_concat. exists (rg k'). split; [apply in_map, C|left; reflexivity].
  - apply nodup_r in N. auto.
Qed.
Lemma find_pool p : forall ps k, find (fun k => name k =? p) ps = Some k -> NoDup (map name ps) ->
  exists A B, ps = A ++ k :: B /\ name k = p /\ forall q, map (fun k => if name k =? p then Pool p (bytes k) q else k) ps = A ++ Pool p (bytes k) q :: B.
Proof.
  assert (ID : forall ps q, ~ In p (map name ps) -> map (fun k => if name k =? p then Pool p (bytes k) q else k) ps = ps).
  { induction ps as [|a ps IH]; intros q N; [reflexivity|]. cbn in *. rewrite IH by tauto. destruct (Nat.eqb_spec (name a) p); [tauto|reflexivity]. }
  induction ps as [|a ps IH]; intros k E N; [discriminate|]. cbn in E, N. apply NoDup_cons_iff in N as (N1 & N2). destruct (Nat.eqb_spec (name a) p) as [P|P].
  - injection E as ->. exists [], ps. split; [reflexivity|]. split; [exact P|]. intros q. cbn. destruct (Nat.eqb_spec (name k) p); [|contradiction]. rewrite ID by (rewrite <- P; exact N1). reflexivity.
  - destruct (IH k E N2) as (A & B & -> & NK & W). exists (a :: A), B. split; [reflexivity|]. split; [exact NK|]. intros q. cbn. destruct (Nat.eqb_spec (name a) p); [contradiction|]. rewrite W. reflexivity.
Qed.
Lemma pick_pool h s p k : pinv h s -> pool_of p s = Some k ->
  exists A B, pools s = A ++ k :: B /\ name k = p /\ (forall q, with_queue p q s = A ++ Pool p (bytes k) q :: B).
Proof. intros ((N & _) & _) E. apply find_pool; [exact E|]. exact (names_sub _ _ N). Qed.

Definition rest (A B : list pool) (l : list (list nat)) : list (list nat) := map rg A ++ map rg B ++ l.
Lemma front A k B l : Permutation (map rg (A ++ k :: B) ++ l) (rg k :: rest A B l).
Proof. unfold rest. rewrite map_app. cbn [map]. rewrite <- app_assoc. cbn [app]. symmetry. apply Permutation_middle. Qed.

Lemma detach_app x a b : detach x (a ++ b) = detach x a ++ detach x b.
Proof. unfold detach. rewrite map_app, filter_app. reflexivity. Qed.

(** What does not change. *)
Lemma pinv_data h h' s l o : pinv h s -> (forall y, In y (nodes s) -> data (h' y) = data (h y)) -> represents h' (map rg (pools s) ++ l) ->
  Forall (fun e => owns h (snd e) (fst e) /\ In (fst e) (concat l) /\ In (snd e) (map name (pools s)) /\ In (fst e) (nodes s)) o -> NoDup (map fst o) -> pinv h' (State (pools s) o l).
Proof.
  intros (R & FP & FO & N) D R' FO' N'. split; [exact R'|]. cbn [pools out lists]. split; [|split; [|exact N']].
  - apply Forall_forall. intros k K. destruct (proj1 (Forall_forall _ _) FP k K) as (P1 & P2 & P3 & P4).
    assert (IN : forall y, In y (rg k) -> In y (nodes s)) by (intros y Y; rewrite nodes_rings; unfold rings; rewrite concat_app; apply in_or_app; left; apply in_concat; exists (rg k); split; [apply in_map, K|exact Y]).
    rewrite D by (apply IN; left; reflexivity). split; [exact P1|]. split; [exact P2|]. split; [exact P3|]. apply Forall_forall. intros x X. unfold owns. rewrite D by (apply IN; right; exact X).
    exact (proj1 (Forall_forall _ _) P4 x X).
  - eapply Forall_impl; [|exact FO']. intros e (O1 & O2 & O3 & O4). unfold owns in *. rewrite D by exact O4. auto.
Qed.

Lemma out_in_nodes h s : pinv h s -> Forall (fun e => In (fst e) (nodes s)) (out s).
Proof. intros (_ & _ & F & _). eapply Forall_impl; [|exact F]. intros e (_ & I & _). unfold nodes. apply in_or_app. right. exact I. Qed.

(** * The steps *)

Definition sz (s : state) : nat := length (nodes s).

Lemma use_ok fuel h s o : pinv h s -> sz s <= fuel -> forallb (fun x => mem x (concat (lists s))) (operands o) = true ->
  exists h', pool_step fuel h (PUse o) = Some (h', Returned (snd (s_step (lists s) o))) /\ pinv h' (State (pools s) (out s) (fst (s_step (lists s) o))) /\ sz (State (pools s) (out s) (fst (s_step (lists s) o))) = sz s.
Proof.
  intros V L U. pose proof V as (R & FP & FO & N).
  assert (RL : represents h (lists s)). { destruct R as (N0 & F). unfold rings in *. rewrite concat_app in N0. split; [exact (nodup_r _ _ N0)|]. apply Forall_app in F. tauto. }
  destruct (step_ok fuel h o (lists s) RL) as (h' & E & R' & P & K).
  - apply Forall_forall. intros x X. rewrite forallb_forall in U. apply mem_In, U, X.
  - unfold sz, nodes in L. rewrite app_length in L. lia.
  - exists h'. cbn [pool_step]. rewrite E. cbn [bind]. split; [reflexivity|]. destruct (s_step (lists s) o) as (l, x). cbn [fst snd] in *. split.
    + apply (pinv_data h); [exact V|intros y _; apply (proj1 K)| | |exact N].
      * destruct R as (N0 & F). destruct R' as (N1 & F1). unfold rings in *. split.
        -- rewrite concat_app in *. eapply Permutation_NoDup; [|exact N0]. apply Permutation_app_head. exact P.
        -- apply Forall_app. split; [|exact F1]. apply Forall_app in F as (F & _). apply (rings_frame h); [|exact F]. intros y Y. apply (proj2 K). rewrite concat_app in N0. intros C.
           apply in_split in Y as (a & b & Y). rewrite Y in N0. rewrite <- app_assoc in N0. cbn in N0. apply NoDup_remove_2 in N0. apply N0. rewrite !in_app_iff. auto.
      * apply Forall_forall. intros e Ee. destruct (proj1 (Forall_forall _ _) FO e Ee) as (O1 & O2 & O3). split; [exact O1|]. split; [eapply Permutation_in; [exact P|exact O2]|]. split; [exact O3|].
        unfold nodes. apply in_or_app. auto.
    + unfold sz, nodes. cbn [pools lists]. rewrite !app_length. f_equal. symmetry. apply Permutation_length, P.
Qed.
