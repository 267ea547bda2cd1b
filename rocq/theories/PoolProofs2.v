From Coq Require Import ZArith List Bool Arith Lia Permutation.
From Verif Require Import CInt CUtil ListModel ListSpec ListProofs ListProofs2 ListProofs3 ListProofs4 ListProofs5 ListProofs6 WellModel WellProofs PoolModel PoolSpec PoolProofs.
Import ListNotations.
Local Open Scope nat_scope.

Lemma pinv_change h h' s A k B q l o : pinv h s -> pools s = A ++ k :: B -> (forall y, In y (concat (map rg (pools s))) -> data (h' y) = data (h y)) ->
  represents h' ((name k :: q) :: rest A B l) -> Forall (owns h' (name k)) q ->
  Forall (fun e => owns h' (snd e) (fst e) /\ In (fst e) (concat l) /\ In (snd e) (map name (pools s))) o -> NoDup (map fst o) -> pinv h' (State (A ++ Pool (name k) (bytes k) q :: B) o l).
Proof.
  intros (R & FP & FO & N) EP D R' FQ FO' N'. split; [|cbn [pools out lists]; split; [|split; [|exact N']]].
  - unfold rings. cbn [pools lists]. refine (represents_perm _ _ _ _ R'). symmetry. apply (front A (Pool (name k) (bytes k) q) B l).
  - rewrite EP in FP, D. assert (KEEP : forall j, In j (A ++ k :: B) -> data (h' (name j)) = need j /\ (0 <= bytes j)%Z /\ (bytes j + 39 < 2 ^ 64)%Z /\ Forall (owns h' (name j)) (queue j)).
    { intros j J. destruct (proj1 (Forall_forall _ _) FP j J) as (P1 & P2 & P3 & P4).
      assert (IN : forall y, In y (rg j) -> In y (concat (map rg (A ++ k :: B)))) by (intros y Y; apply in_concat; exists (rg j); split; [apply in_map, J|exact Y]).
      rewrite D by (apply IN; left; reflexivity). split; [exact P1|]. split; [exact P2|]. split; [exact P3|]. apply Forall_forall. intros x X. unfold owns. rewrite D by (apply IN; right; exact X).
      exact (proj1 (Forall_forall _ _) P4 x X). }
    apply Forall_app. split; [apply Forall_forall; intros j J; apply KEEP, in_or_app; auto|]. constructor; [|apply Forall_forall; intros j J; apply KEEP, in_or_app; right; right; exact J].
    destruct (KEEP k) as (P1 & P2 & P3 & P4); [apply in_or_app; right; left; reflexivity|]. cbn [name bytes queue]. unfold need in *. cbn [bytes]. auto.
  - eapply Forall_impl; [|exact FO']. intros e (O1 & O2 & O3). split; [exact O1|]. split; [exact O2|]. rewrite EP in O3. rewrite map_app in *. exact O3.
Qed.

Lemma insert_last fuel h rt l x rs : represents h ((rt :: l) :: rs) -> In x (concat rs) -> length (concat ((rt :: l) :: rs)) <= fuel ->
  exists h', insert fuel h (last l rt) x = Some h' /\ represents h' ((rt :: l ++ [x]) :: detach x rs) /\ (forall y, data (h' y) = data (h y)).
Proof.
  intros R I L. assert (P0 : last l rt = last (rt :: l) 0) by (symmetry; apply last_from).
  assert (IP : In (last l rt) (rt :: l)) by (rewrite P0; apply last_In; discriminate).
  destruct (insert_ok fuel h (last l rt) x _ R) as (h' & E & R' & P & K); [apply in_first; exact IP|apply in_rest; exact I|exact L|].
  exists h'. split; [exact E|]. split; [|apply (proj1 K)].
  destruct (exists_last (l := rt :: l) ltac:(discriminate)) as (l' & a & EQ). rewrite P0, EQ, last_last in R'.
  rewrite (place_rest h a x l' [] rs) in R'; [|rewrite <- EQ; exact R|exact I]. rewrite app_comm_cons, EQ, <- app_assoc. exact R'.
Qed.

Lemma fini_ok fuel : forall q n h p rs, represents h ((p :: q) :: rs) -> length q < n -> S (length q) <= fuel ->
  exists h', fini_loop fuel n h p = Some (h', q) /\ represents h' ([p] :: rs) /\ (forall y, data (h' y) = data (h y)).
Proof.
  induction q as [|x q IH]; intros n h p rs R Ln L; (destruct n as [|n]; [lia|]); cbn [fini_loop]; rewrite (isempty_root _ _ _ _ R); cbn [negb].
  - exists h. auto.
  - destruct (next_root _ _ _ _ R) as (N1 & _). rewrite N1. cbn [hd]. cbn [length] in Ln, L. destruct (deq fuel h p x q rs R) as (h1 & E1 & R1 & K1); [cbn [length]; lia|]. rewrite E1. cbn [bind].
    assert (R2 : represents h1 ((p :: q) :: rs)) by (destruct R1 as (N & F); split; [cbn in *; apply NoDup_cons_iff in N; tauto|exact (Forall_inv_tail F)]).
    destruct (IH n h1 p rs R2) as (h2 & E2 & R3 & D); [lia|lia|]. rewrite E2. cbn [bind]. exists h2. split; [reflexivity|]. split; [exact R3|]. intros y. rewrite D. apply (proj1 K1).
Qed.

Lemma return_to_in x o p : return_to x o = Some p -> In (x, p) o.
Proof.
  unfold return_to. destruct (find (fun e => fst e =? x) o) as [(y, q)|] eqn:F; [|discriminate]. intros E. injection E as <-. apply find_some in F as (F & G). cbn in G. apply Nat.eqb_eq in G. cbn. subst. exact F.
Qed.
Lemma outside_in x o e : In e (outside x o) <-> In e o /\ fst e <> x.
Proof. unfold outside. rewrite filter_In, negb_true_iff, Nat.eqb_neq. reflexivity. Qed.
Lemma outside_nodup x o : NoDup (map fst o) -> NoDup (map fst (outside x o)).
Proof.
  induction o as [|e o IH]; [constructor|]. cbn. intros N. apply NoDup_cons_iff in N as (A & N). destruct (fst e =? x); cbn; [auto|]. constructor; [|auto]. intros C. apply A.
  apply in_map_iff in C as (e' & E & C). apply outside_in in C as (C & _). apply in_map_iff. exists e'. auto.
Qed.
Lemma detach_in x l y : In y (concat l) -> y <> x -> In y (concat (detach x l)).
Proof.
  intros I NE. apply in_concat in I as (r & R1 & R2). apply in_concat. exists (without x r). unfold detach.
  assert (W : In y (without x r)) by (unfold without; apply filter_In; split; [exact R2|apply negb_true_iff, Nat.eqb_neq, NE]).
  split; [|exact W]. apply filter_In. split; [apply in_map, R1|destruct (without x r); [destruct W|reflexivity]].
Qed.
Lemma detach_len x l : length (concat (detach x l)) <= length (concat l).
Proof.
  unfold detach. induction l as [|r l IH]; [cbn; lia|]. cbn [map filter]. assert (W : length (without x r) <= length r) by (unfold without; clear; induction r as [|y r IH]; cbn; [lia|]; destruct (negb (y =? x)); cbn; lia).
  destruct (nonempty (without x r)); cbn; rewrite ?app_length; lia.
Qed.

Lemma in_pools A k B y : In y (rg k) -> In y (concat (map rg (A ++ k :: B))).
Proof. intros Y. apply in_concat. exists (rg k). split; [apply in_map, in_or_app; right; left; reflexivity|exact Y]. Qed.
Lemma disjoint_parts s h y : represents h (rings s) -> In y (concat (map rg (pools s))) -> ~ In y (concat (lists s)).
Proof.
  intros (N & _) Y C. unfold rings in N. rewrite concat_app in N. apply in_split in Y as (a & b & Y). rewrite Y, <- app_assoc in N. cbn in N. apply NoDup_remove_2 in N. apply N. rewrite !in_app_iff. auto.
Qed.

Lemma sz_front A k B l o : sz (State (A ++ k :: B) o l) = length (rg k) + length (concat (map rg A)) + length (concat (map rg B)) + length (concat l).
Proof. unfold sz, nodes. cbn [pools lists]. rewrite map_app, concat_app. cbn [map concat]. rewrite !app_length. unfold rg. cbn [length]. lia. Qed.
Lemma sz_split s A k B : pools s = A ++ k :: B -> sz s = length (rg k) + length (concat (map rg A)) + length (concat (map rg B)) + length (concat (lists s)).
Proof. intros E. destruct s as [ps o l]. cbn in E. subst. apply sz_front. Qed.
Lemma len_rest r A B l : length (concat (r :: rest A B l)) = length r + length (concat (map rg A)) + length (concat (map rg B)) + length (concat l).
Proof. unfold rest. cbn [concat]. rewrite !app_length, !concat_app, !app_length. lia. Qed.

Lemma pool_step_ok fuel h s o s' r : pinv h s -> sz s <= fuel -> p_step s o = Some (s', r) -> exists h', pool_step fuel h o = Some (h', r) /\ pinv h' s' /\ sz s' <= S (sz s).
Proof.
  intros V L E. pose proof V as (R & FP & FO & N). destruct o as [p m|x|o|p]; cbn [p_step] in E.
  - destruct (pool_of p s) as [k|] eqn:PO; [|discriminate]. destruct (pick_pool h s p k V PO) as (A & B & EP & NK & WQ).
    assert (RF : represents h (rg k :: rest A B (lists s))) by (refine (represents_perm _ _ _ _ R); unfold rings; rewrite EP; apply front).
    pose proof (sz_split s A k B EP) as SZ. rewrite EP in FP. pose proof (Forall_elt _ _ _ FP) as (K1 & K2 & K3 & K4).
    assert (PN : In p (map name (pools s))) by (rewrite EP, map_app, in_app_iff; right; left; exact NK).
    unfold rg in RF. cbn [pool_step]. unfold pool_alloc. rewrite NK in *. destruct (next_root _ _ _ _ RF) as (N1 & _ & R1). rewrite R1, (isempty_root _ _ _ _ RF), N1. destruct (queue k) as [|x q] eqn:QK.
    + rewrite K1. unfold NULL. destruct (Nat.eqb_spec m 0) as [->|M0]; [injection E as <- <-; cbn [bind]; exists h; split; [reflexivity|]; split; [exact V|lia]|].
      destruct (mem m (nodes s)) eqn:ME; [discriminate|]. apply mem_not in ME. injection E as <- <-.
      assert (BIG : (object_size <=? need k)%Z = true) by (apply Z.leb_le; unfold need, object_size; pose proof (Z.div_mod (32 + bytes k + 7) 8); pose proof (Z.mod_pos_bound (32 + bytes k + 7) 8); lia).
      rewrite BIG. cbn [bind]. eexists. split; [reflexivity|]. rewrite nodes_rings in ME.
      assert (DT : forall y, data (datainit h m (Z.of_nat p) y) = if y =? m then Z.of_nat p else data (h y)) by (intros y; destruct (datainit_fields h m (Z.of_nat p) y) as (_ & _ & _ & D); exact D).
      pose proof (datainit_new h m (Z.of_nat p) _ R ME) as R2.
      assert (DK : forall y, In y (concat (rings s)) -> data (datainit h m (Z.of_nat p) y) = data (h y)) by (intros y Y; rewrite DT; destruct (Nat.eqb_spec y m); [subst; contradiction|reflexivity]).
      split.
      * pose proof (pinv_change h (datainit h m (Z.of_nat p)) s A k B [] ([m] :: lists s) ((m, p) :: out s) V EP) as PC.
        assert (EK : A ++ Pool (name k) (bytes k) [] :: B = pools s) by (rewrite EP; destruct k; cbn in *; subst; reflexivity). rewrite EK in PC. apply PC.
        -- intros y Y. apply DK. unfold rings. rewrite concat_app. apply in_or_app. auto.
        -- rewrite NK. refine (represents_perm _ _ _ _ R2). unfold rings. rewrite EP. rewrite (front A k B (lists s)). unfold rg at 1. rewrite NK, QK. unfold rest. rewrite perm_swap. apply perm_skip.
           rewrite !app_assoc. apply Permutation_middle.
        -- constructor.
        -- constructor; [cbn [fst snd]; split; [unfold owns; rewrite DT, Nat.eqb_refl; reflexivity|split; [left; reflexivity|exact PN]]|].
           apply Forall_forall. intros e Ee. destruct (proj1 (Forall_forall _ _) FO e Ee) as (O1 & O2 & O3). split; [|split; [right; exact O2|exact O3]]. unfold owns. rewrite DK; [exact O1|].
           unfold rings. rewrite concat_app. apply in_or_app. auto.
        -- cbn. constructor; [|exact N]. intros C. apply ME. apply in_map_iff in C as (e & <- & C). destruct (proj1 (Forall_forall _ _) FO e C) as (_ & O2 & _). unfold rings. rewrite concat_app. apply in_or_app. auto.
      * unfold sz, nodes. cbn [pools lists concat]. rewrite !app_length. cbn. lia.
    + injection E as <- <-. cbn [hd]. destruct (deq fuel h p x q _ RF) as (h1 & E1 & R2 & K); [unfold rg in SZ; rewrite QK in SZ; cbn [length] in *; lia|]. rewrite E1. cbn [bind].
      exists h1. split; [reflexivity|]. rewrite WQ. rewrite <- NK. split.
      * apply (pinv_change h h1 s); [exact V|exact EP|intros y _; apply (proj1 K)| | | |].
        -- rewrite NK. refine (represents_perm _ _ _ _ R2). rewrite perm_swap. apply perm_skip. unfold rest. rewrite !app_assoc. apply Permutation_middle.
        -- rewrite NK. apply Forall_inv_tail in K4. eapply Forall_impl; [|exact K4]. intros y Y. unfold owns in *. rewrite (proj1 K). exact Y.
        -- constructor; [cbn [fst snd]; split; [unfold owns; rewrite (proj1 K), NK; exact (Forall_inv K4)|split; [left; reflexivity|rewrite NK; exact PN]]|].
           apply Forall_forall. intros e Ee. destruct (proj1 (Forall_forall _ _) FO e Ee) as (O1 & O2 & O3). split; [unfold owns; rewrite (proj1 K); exact O1|split; [right; exact O2|exact O3]].
        -- cbn. constructor; [|exact N]. intros C. apply in_map_iff in C as (e & EQ & C). destruct (proj1 (Forall_forall _ _) FO e C) as (_ & O2 & _). rewrite EQ in O2.
           apply (disjoint_parts s h x R); [|exact O2]. rewrite EP. apply in_pools. unfold rg. rewrite QK. right. left. reflexivity.
      * rewrite sz_front. unfold rg in SZ |- *. rewrite QK in SZ. cbn [queue concat length app] in *. lia.
  - destruct (return_to x (out s)) as [p|] eqn:RT; [|discriminate]. destruct (pool_of p s) as [k|] eqn:PO; [|discriminate]. injection E as <- <-. apply return_to_in in RT.
    destruct (pick_pool h s p k V PO) as (A & B & EP & NK & WQ). destruct (proj1 (Forall_forall _ _) FO _ RT) as (O1 & O2 & O3). cbn [fst snd] in *.
    assert (RF : represents h (rg k :: rest A B (lists s))) by (refine (represents_perm _ _ _ _ R); unfold rings; rewrite EP; apply front).
    pose proof (sz_split s A k B EP) as SZ. rewrite EP in FP. pose proof (Forall_elt _ _ _ FP) as (K1 & K2 & K3 & K4).
    cbn [pool_step]. unfold pool_free. unfold owns in O1. rewrite O1, Nat2Z.id. unfold rg in RF. rewrite NK in RF. destruct (next_root _ _ _ _ RF) as (_ & P1 & R1). rewrite R1, P1.
    destruct (insert_last fuel h p (queue k) x _ RF) as (h1 & E1 & R2 & D).
    + unfold rest. rewrite !concat_app, !in_app_iff. auto.
    + rewrite len_rest. change (length (rg k)) with (S (length (queue k))) in SZ. cbn [length] in *. lia.
    + rewrite E1. cbn [bind]. exists h1. split; [reflexivity|]. rewrite WQ.
      assert (NP : forall q, In q (A ++ k :: B) -> ~ In x (rg q)).
      { intros q Q C. apply (disjoint_parts s h x R); [|exact O2]. rewrite EP. apply in_concat. exists (rg q). split; [apply in_map, Q|exact C]. }
      assert (DI : forall C, incl C (A ++ k :: B) -> detach x (map rg C) = map rg C).
      { intros C CI. apply detach_id; [|apply Forall_forall; intros r' RR; apply in_map_iff in RR as (q & <- & _); discriminate]. intros CC. apply in_concat in CC as (r' & RR & XX). apply in_map_iff in RR as (q & <- & Q). exact (NP q (CI q Q) XX). }
      assert (DR : detach x (rest A B (lists s)) = rest A B (detach x (lists s))).
      { unfold rest. rewrite !detach_app, (DI A), (DI B); [reflexivity| |]; intros q Q; apply in_or_app; [right; right; exact Q|left; exact Q]. }
      rewrite DR in R2. rewrite <- NK. split.
      * apply (pinv_change h h1 s); [exact V|exact EP|intros y _; apply D|rewrite NK; exact R2| | |apply outside_nodup, N].
        -- apply Forall_app. split; [eapply Forall_impl; [|exact K4]; intros y Y; unfold owns in *; rewrite D; exact Y|]. constructor; [|constructor]. unfold owns. rewrite D, NK. exact O1.
        -- apply Forall_forall. intros e Ee. apply outside_in in Ee as (Ee & NE). destruct (proj1 (Forall_forall _ _) FO e Ee) as (Q1 & Q2 & Q3). split; [unfold owns in *; rewrite D; exact Q1|]. split; [apply detach_in; assumption|exact Q3].
      * rewrite sz_front. unfold rg in SZ |- *. cbn [queue length] in *. rewrite app_length. cbn [length]. pose proof (detach_len x (lists s)). lia.
  - destruct (forallb (fun x => mem x (concat (lists s))) (operands o)) eqn:FB; [|discriminate]. destruct (use_ok fuel h s o V L FB) as (h' & E' & V' & S'). destruct (s_step (lists s) o) as (l, x). injection E as <- <-.
    exists h'. split; [exact E'|]. split; [exact V'|]. cbn [fst] in S'. lia.
  - destruct (pool_of p s) as [k|] eqn:PO; [|discriminate]. injection E as <- <-. destruct (pick_pool h s p k V PO) as (A & B & EP & NK & WQ).
    assert (RF : represents h (rg k :: rest A B (lists s))) by (refine (represents_perm _ _ _ _ R); unfold rings; rewrite EP; apply front).
    pose proof (sz_split s A k B EP) as SZ. cbn [pool_step]. unfold pool_fini. unfold rg in RF. rewrite NK in RF. destruct (next_root _ _ _ _ RF) as (_ & _ & R1). rewrite R1.
    destruct (fini_ok fuel (queue k) fuel h p _ RF) as (h1 & E1 & R2 & D); [unfold rg in SZ; cbn [length] in *; lia|unfold rg in SZ; cbn [length] in *; lia|].
    rewrite E1. cbn [bind]. exists h1. split; [reflexivity|]. rewrite WQ. rewrite <- NK. split.
    + apply (pinv_change h h1 s); [exact V|exact EP|intros y _; apply D|rewrite NK; exact R2|constructor| |exact N].
      eapply Forall_impl; [|exact FO]. intros e (Q1 & Q2 & Q3). split; [unfold owns in *; rewrite D; exact Q1|auto].
    + rewrite sz_front. unfold rg in *. cbn [queue length] in *. lia.
Qed.

Lemma pool_run_ok fuel : forall ops h s s' rs, pinv h s -> sz s + length ops <= fuel -> p_run s ops = Some (s', rs) -> exists h', pool_run fuel h ops = Some (h', rs) /\ pinv h' s'.
Proof.
  induction ops as [|o ops IH]; intros h s s' rs V L E; cbn [p_run] in E.
  - injection E as <- <-. exists h. auto.
  - destruct (p_step s o) as [(s1, r)|] eqn:ES; [|discriminate]. destruct (p_run s1 ops) as [(s2, rs2)|] eqn:ER; [|discriminate]. injection E as <- <-. cbn [length] in L.
    destruct (pool_step_ok fuel h s o s1 r V ltac:(lia) ES) as (h1 & E1 & V1 & L1). destruct (IH h1 s1 s2 rs2 V1 ltac:(lia) ER) as (h2 & E2 & V2). exists h2. cbn [pool_run]. rewrite E1. cbn [bind]. rewrite E2. auto.
Qed.
