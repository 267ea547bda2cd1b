(** Proofs about the multiplexer: registration. *)

From Coq Require Import ZArith List Bool Lia.
From Verif Require Import CInt CUtil MuxModel MuxSpec.
Import ListNotations.
Local Open Scope Z_scope.

Lemma mem_In fd l : mem fd l = true <-> In fd l.
Proof. unfold mem. rewrite existsb_exists. split; [intros (x & I & E); apply Z.eqb_eq in E; subst; exact I|intros I; exists fd; split; [exact I|apply Z.eqb_refl]]. Qed.
Lemma mem_not fd l : mem fd l = false <-> ~ In fd l.
Proof. rewrite <- mem_In. destruct (mem fd l); split; congruence. Qed.
Lemma without_In x fd l : In x (without fd l) <-> In x l /\ x <> fd.
Proof. unfold without. rewrite filter_In, negb_true_iff, Z.eqb_neq. reflexivity. Qed.
Lemma without_id fd l : ~ In fd l -> without fd l = l.
Proof. unfold without. induction l as [|x l IH]; [reflexivity|]. cbn. intros N. destruct (Z.eqb_spec x fd); [tauto|]. cbn. rewrite IH by tauto. reflexivity. Qed.
Lemma which_eqb_spec a b : reflect (a = b) (which_eqb a b).
Proof. destruct a, b; constructor; congruence. Qed.
Lemma which_eqb_refl a : which_eqb a a = true. Proof. destruct a; reflexivity. Qed.

Lemma setbit_is s p fd : 0 <= fd -> set_is s p -> set_is (Z.setbit s fd) (fun x => p x \/ x = fd).
Proof. intros F S x X. rewrite Z.setbit_eqb by lia. rewrite orb_true_iff, Z.eqb_eq, (S x X). intuition congruence. Qed.
Lemma clearbit_is s p fd : 0 <= fd -> set_is s p -> set_is (Z.clearbit s fd) (fun x => p x /\ x <> fd).
Proof. intros F S x X. rewrite Z.clearbit_eqb by lia. rewrite andb_true_iff, negb_true_iff, Z.eqb_neq, (S x X). intuition congruence. Qed.
Lemma set_is_ext s p q : set_is s p -> (forall x, p x <-> q x) -> set_is s q.
Proof. intros S E x X. rewrite (S x X). apply E. Qed.

(** * One set *)

Definition sinv (s : mset) (l : list Z) : Prop :=
  set_is (active s) (fun fd => In fd l) /\ (forall fd, In fd l -> 0 <= fd < 1024) /\
  match l with
  | [] => min s = MOSTPOSITIVE /\ max s = MOSTNEGATIVE /\ next s = -1
  | _ => In (min s) l /\ In (max s) l /\ (forall fd, In fd l -> min s <= fd <= max s) /\ (next s = -1 \/ min s <= next s <= max s)
  end.
Lemma sinv_bounded s l : sinv s l -> bounded s l.
Proof. intros (_ & _ & B). unfold bounded. destruct l; [unfold MOSTPOSITIVE, MOSTNEGATIVE in B; lia|tauto]. Qed.
Lemma sinv_init : sinv set_init [].
Proof. split; [intros fd F; cbn; rewrite Z.bits_0; split; [discriminate|intros []]|]. split; [intros fd []|]. cbn. auto. Qed.
(** Only what is active, the bounds and the cursor matter. *)
Lemma sinv_same s s' l : sinv s l -> active s' = active s -> min s' = min s -> max s' = max s -> (next s' = next s \/ (next s' = -1) \/ l <> [] /\ min s <= next s' <= max s) -> sinv s' l.
Proof.
  intros (A & R & B) E1 E2 E3 E4. unfold sinv. rewrite E1, E2, E3. split; [exact A|]. split; [exact R|]. destruct l as [|x l]; [|].
  - destruct B as (B1 & B2 & B3). split; [exact B1|]. split; [exact B2|]. destruct E4 as [E4|[E4|(E4 & _)]]; congruence.
  - destruct B as (B1 & B2 & B3 & B4). split; [exact B1|]. split; [exact B2|]. split; [exact B3|]. destruct E4 as [E4|[E4|(_ & E4)]]; [rewrite E4; exact B4|auto|auto].
Qed.

Lemma bound_loop_ok act : forall n fd lo hi, (forall x, fd <= x < fd + Z.of_nat n -> 0 <= x < 1024) ->
  exists lo' hi', bound_loop n fd act lo hi = Some (lo', hi') /\
    (lo' = lo \/ (fd <= lo' < fd + Z.of_nat n /\ Z.testbit act lo' = true)) /\ (hi' = hi \/ (fd <= hi' < fd + Z.of_nat n /\ Z.testbit act hi' = true)) /\
    lo' <= lo /\ hi <= hi' /\ (forall x, fd <= x < fd + Z.of_nat n -> Z.testbit act x = true -> lo' <= x <= hi').
Proof.
  induction n as [|n IH]; intros fd lo hi R; [exists lo, hi; cbn; repeat (split; [auto; lia|]); intros; lia|].
  cbn [bound_loop]. unfold fd_isset, in_set_size, FD_SETSIZE. assert (RF := R fd ltac:(lia)). destruct (Z.leb_spec 0 fd); [|lia]. destruct (Z.ltb_spec fd 1024); [|lia]. cbn [andb bind].
  set (lo1 := if Z.testbit act fd && (fd <? lo) then fd else lo). set (hi1 := if Z.testbit act fd && (fd >? hi) then fd else hi).
  destruct (IH (fd + 1) lo1 hi1) as (lo' & hi' & E & A & B & C & D & F); [intros x X; apply R; lia|]. exists lo', hi'. split; [exact E|].
  assert (L1 : lo1 = lo \/ (lo1 = fd /\ Z.testbit act fd = true)) by (unfold lo1; destruct (Z.testbit act fd); cbn; [destruct (fd <? lo); auto|auto]).
  assert (H1 : hi1 = hi \/ (hi1 = fd /\ Z.testbit act fd = true)) by (unfold hi1; destruct (Z.testbit act fd); cbn; [destruct (fd >? hi); auto|auto]).
  assert (L2 : lo1 <= lo) by (unfold lo1; destruct (Z.testbit act fd); cbn; [destruct (Z.ltb_spec fd lo); lia|lia]).
  assert (H2 : hi <= hi1) by (unfold hi1; destruct (Z.testbit act fd); cbn; [rewrite Z.gtb_ltb; destruct (Z.ltb_spec hi fd); lia|lia]).
  assert (X1 : Z.testbit act fd = true -> lo1 <= fd <= hi1) by (intros T; unfold lo1, hi1; rewrite T; cbn; rewrite Z.gtb_ltb; destruct (Z.ltb_spec fd lo), (Z.ltb_spec hi fd); lia).
  split; [|split; [|split; [lia|split; [lia|]]]].
  - destruct A as [->|(A1 & A2)]; [destruct L1 as [->|(-> & T)]; [auto|right; split; [lia|exact T]]|right; split; [lia|exact A2]].
  - destruct B as [->|(B1 & B2)]; [destruct H1 as [->|(-> & T)]; [auto|right; split; [lia|exact T]]|right; split; [lia|exact B2]].
  - intros x X T. destruct (Z.eq_dec x fd) as [->|]; [specialize (X1 T); lia|]. apply F; [lia|exact T].
Qed.

Lemma register_set s l fd : sinv s l -> 0 <= fd < 1024 -> ~ In fd l ->
  sinv (MSet (Z.setbit (active s) fd) (Z.clearbit (ready s) fd) (if fd <? min s then fd else min s) (if fd >? max s then fd else max s) (next s)) (fd :: l).
Proof.
  intros (A & R & B) F N. split; [|split].
  - cbn [active]. apply (set_is_ext _ (fun x => In x l \/ x = fd)); [apply setbit_is; [lia|exact A]|]. intros x. cbn. intuition congruence.
  - intros x [<-|X]; [exact F|apply R, X].
  - cbn [min max next]. rewrite Z.gtb_ltb. destruct l as [|y l].
    + destruct B as (-> & -> & ->). unfold MOSTPOSITIVE, MOSTNEGATIVE. destruct (Z.ltb_spec fd 2147483647); [|lia]. destruct (Z.ltb_spec (-2147483648) fd); [|lia].
      split; [left; reflexivity|]. split; [left; reflexivity|]. split; [intros x [<-|[]]; lia|auto].
    + destruct B as (B1 & B2 & B3 & B4). split; [destruct (fd <? min s); [left; reflexivity|right; exact B1]|]. split; [destruct (max s <? fd); [left; reflexivity|right; exact B2]|].
      split; [|destruct (Z.ltb_spec fd (min s)), (Z.ltb_spec (max s) fd); lia].
      intros x [<-|X]; [|specialize (B3 x X)]; destruct (Z.ltb_spec fd (min s)), (Z.ltb_spec (max s) fd); lia.
Qed.

Lemma unregister_set s l fd : sinv s l -> In fd l ->
  exists s1, set_bound (MSet (Z.clearbit (active s) fd) (Z.clearbit (ready s) fd) (min s) (max s) (next s)) = Some s1 /\ sinv (set_normalize s1) (without fd l) /\ ready (set_normalize s1) = Z.clearbit (ready s) fd.
Proof.
  intros (A & R & B) I. assert (B' : In (min s) l /\ In (max s) l /\ (forall fd, In fd l -> min s <= fd <= max s) /\ (next s = -1 \/ min s <= next s <= max s)) by (destruct l; [destruct I|exact B]).
  destruct B' as (B1 & B2 & B3 & B4). pose proof (R _ B1) as R1. pose proof (R _ B2) as R2. pose proof (R _ I) as RF. specialize (B3 _ B1) as B5.
  assert (A' : set_is (Z.clearbit (active s) fd) (fun x => In x (without fd l))) by (apply (set_is_ext _ (fun x => In x l /\ x <> fd)); [apply clearbit_is; [lia|exact A]|intros x; rewrite without_In; reflexivity]).
  unfold set_bound. cbn [active ready min max next].
  destruct (bound_loop_ok (Z.clearbit (active s) fd) (Z.to_nat (max s - min s + 1)) (min s) MOSTPOSITIVE MOSTNEGATIVE) as (lo & hi & E & L & H & _ & _ & F); [intros x X; lia|]. rewrite E. cbn [bind].
  eexists. split; [reflexivity|]. split; [|reflexivity]. split; [cbn [set_normalize active]; exact A'|]. split; [intros x X; apply without_In in X as (X & _); apply R, X|].
  cbn [set_normalize active ready min max next].
  assert (BND : forall x, In x (without fd l) -> lo <= x <= hi) by (intros x X; pose proof X as X'; apply without_In in X' as (X' & _); apply F; [specialize (B3 x X'); lia|apply A'; [specialize (R x X'); lia|exact X]]).
  assert (L' : lo = MOSTPOSITIVE \/ In lo (without fd l)) by (destruct L as [L|(L1 & L2)]; [auto|right; apply A'; [lia|exact L2]]).
  assert (H' : hi = MOSTNEGATIVE \/ In hi (without fd l)) by (destruct H as [H|(H1 & H2)]; [auto|right; apply A'; [lia|exact H2]]).
  unfold MOSTPOSITIVE, MOSTNEGATIVE in *. destruct (without fd l) as [|y l'] eqn:W.
  - destruct L' as [->|[]]. destruct H' as [->|[]]. split; [reflexivity|]. split; [reflexivity|]. destruct (Z.ltb_spec (next s) 0); [destruct B4; lia|reflexivity].
  - assert (Y : 0 <= y < 1024 /\ lo <= y <= hi) by (split; [apply R; apply (without_In y fd l); rewrite W; left; reflexivity|apply BND; left; reflexivity]).
    destruct L' as [->|L']; [lia|]. destruct H' as [->|H']; [lia|]. split; [exact L'|]. split; [exact H'|]. split; [exact BND|]. pose proof (BND _ L').
    destruct (Z.ltb_spec (next s) 0); [left; destruct B4; lia|]. destruct (Z.ltb_spec hi 0); [lia|]. destruct (Z.ltb_spec (next s) lo); [lia|]. rewrite Z.gtb_ltb. destruct (Z.ltb_spec hi (next s)); lia.
Qed.

(** * All sets *)

Definition minv (m : mux) (g : registry) : Prop :=
  (forall w, sinv (sets m w) (g w)) /\
  set_is (read_or_accept m) (fun fd => In fd (g READ) \/ In fd (g ACCEPT)) /\
  set_is (urgent_or_interrupt m) (fun fd => In fd (g URGENT) \/ In fd (g INTERRUPT)).

Lemma minv_init mask : minv (mux_init mask) nothing.
Proof. split; [intros w; exact sinv_init|]. split; intros fd F; cbn; rewrite Z.bits_0; split; [discriminate|intros [[]|[]]|discriminate|intros [[]|[]]]. Qed.

Lemma in_size fd : in_set_size fd = (0 <=? fd) && (fd <? 1024). Proof. reflexivity. Qed.

Lemma register_ok m g w fd : minv m g -> exists m' rc g', mux_register m w fd = Some (m', rc) /\ r_step g (Register w fd) = Some (g', Returns rc) /\ minv m' g' /\
  (forall v, next (sets m' v) = next (sets m v)) /\ (forall v, ready (sets m' v) = if which_eqb v w && (0 <=? rc) then Z.clearbit (ready (sets m v)) fd else ready (sets m v)).
Proof.
  intros (S & RA & UI). unfold mux_register. cbn [r_step]. change FD_SETSIZE with 1024. unfold fd_isset, fd_set, fd_clr. rewrite !in_size.
  destruct ((0 <=? fd) && (fd <? 1024)) eqn:IR; cbn [negb andb].
  2:{ exists m, (-1), g. split; [reflexivity|]. split; [reflexivity|]. split; [split; auto|]. split; [auto|]. intros v. rewrite andb_false_r. reflexivity. }
  apply andb_true_iff in IR as (I1 & I2). apply Z.leb_le in I1. apply Z.ltb_lt in I2. destruct (S w) as (A & R & B). cbn [bind].
  destruct (Z.testbit (active (sets m w)) fd) eqn:T.
  { assert (M : mem fd (g w) = true) by (apply mem_In, A; [exact I1|exact T]). rewrite M. cbn [negb]. exists m, (-1), g. split; [reflexivity|]. split; [reflexivity|]. split; [split; auto|]. split; [auto|]. intros v. rewrite andb_false_r. reflexivity. }
  assert (N : ~ In fd (g w)) by (intros C; apply A in C; [congruence|exact I1]). assert (M : mem fd (g w) = false) by (apply mem_not, N). rewrite M. cbn [negb bind].
  assert (ST : forall roa uoi, (forall v, sinv (sets (with_set (Mux roa uoi (sets m) (mask m)) w (MSet (Z.setbit (active (sets m w)) fd) (Z.clearbit (ready (sets m w)) fd)
      (if fd <? min (sets m w) then fd else min (sets m w)) (if fd >? max (sets m w) then fd else max (sets m w)) (next (sets m w)))) v) (update g w (fd :: g w) v))).
  { intros roa uoi v. unfold with_set, update. cbn [sets]. destruct (which_eqb_spec v w) as [->|]; [apply register_set; [apply S|lia|exact N]|apply S]. }
  exists (with_set (Mux (if which_eqb w READ || which_eqb w ACCEPT then Z.setbit (read_or_accept m) fd else read_or_accept m) (if which_eqb w URGENT || which_eqb w INTERRUPT then Z.setbit (urgent_or_interrupt m) fd else urgent_or_interrupt m) (sets m) (mask m)) w
    (MSet (Z.setbit (active (sets m w)) fd) (Z.clearbit (ready (sets m w)) fd) (if fd <? min (sets m w) then fd else min (sets m w)) (if fd >? max (sets m w) then fd else max (sets m w)) (next (sets m w)))), fd, (update g w (fd :: g w)).
  split; [destruct w; reflexivity|]. split; [reflexivity|]. split; [|split].
  - split; [intros v; apply ST|]. unfold with_set. cbn [read_or_accept urgent_or_interrupt]. split.
    + destruct w; cbn [which_eqb orb]; [apply (set_is_ext _ (fun x => (In x (g READ) \/ In x (g ACCEPT)) \/ x = fd)); [apply setbit_is; assumption|unfold update; cbn; intros x; intuition congruence]|exact RA|
        apply (set_is_ext _ (fun x => (In x (g READ) \/ In x (g ACCEPT)) \/ x = fd)); [apply setbit_is; assumption|unfold update; cbn; intros x; intuition congruence]|exact RA|exact RA].
    + destruct w; cbn [which_eqb orb]; [exact UI|exact UI|exact UI|apply (set_is_ext _ (fun x => (In x (g URGENT) \/ In x (g INTERRUPT)) \/ x = fd)); [apply setbit_is; assumption|unfold update; cbn; intros x; intuition congruence]|
        apply (set_is_ext _ (fun x => (In x (g URGENT) \/ In x (g INTERRUPT)) \/ x = fd)); [apply setbit_is; assumption|unfold update; cbn; intros x; intuition congruence]].
  - intros v. unfold with_set. cbn [sets]. destruct (which_eqb_spec v w) as [->|]; reflexivity.
  - intros v. unfold with_set. cbn [sets]. destruct (Z.leb_spec 0 fd); [|lia]. destruct (which_eqb_spec v w) as [->|]; reflexivity.
Qed.

(** Unregistering: what remains of the sets that are shared needs care. *)
Lemma unregister_raw m g w fd : (forall v, sinv (sets m v) (g v)) -> 
  exists m' rc, mux_unregister m w fd = Some (m', rc) /\ rc = (if mem fd (g w) then fd else -1) /\ (forall v, sinv (sets m' v) (update g w (without fd (g w)) v)) /\
    read_or_accept m' = (if mem fd (g w) && (which_eqb w READ || which_eqb w ACCEPT) then Z.clearbit (read_or_accept m) fd else read_or_accept m) /\
    urgent_or_interrupt m' = (if mem fd (g w) && (which_eqb w URGENT || which_eqb w INTERRUPT) then Z.clearbit (urgent_or_interrupt m) fd else urgent_or_interrupt m) /\ mask m' = mask m.
Proof.
  intros S. destruct (S w) as (A & R & B). unfold mux_unregister. change FD_SETSIZE with 1024. unfold fd_isset, fd_clr. rewrite !in_size.
  assert (SAME : ~ In fd (g w) -> forall v, sinv (sets m v) (update g w (without fd (g w)) v)) by (intros N v; unfold update; destruct (which_eqb_spec v w) as [->|]; [rewrite without_id by exact N|]; apply S).
  destruct ((0 <=? fd) && (fd <? 1024)) eqn:IR; cbn [negb andb].
  2:{ assert (N : ~ In fd (g w)) by (intros C; specialize (R fd C); destruct (Z.leb_spec 0 fd), (Z.ltb_spec fd 1024); cbn in IR; lia). rewrite (proj2 (mem_not _ _) N). cbn [andb]. exists m, (-1). repeat (split; [auto; reflexivity|]). reflexivity. }
  apply andb_true_iff in IR as (I1 & I2). apply Z.leb_le in I1. apply Z.ltb_lt in I2. cbn [bind].
  destruct (Z.testbit (active (sets m w)) fd) eqn:T.
  2:{ assert (N : ~ In fd (g w)) by (intros C; apply A in C; [congruence|exact I1]). rewrite (proj2 (mem_not _ _) N). cbn [andb]. exists m, (-1). repeat (split; [auto; reflexivity|]). reflexivity. }
  assert (I : In fd (g w)) by (apply A; assumption). rewrite (proj2 (mem_In _ _) I). cbn [andb bind].
  destruct (unregister_set (sets m w) (g w) fd (S w) I) as (s1 & E & SI & _).
  exists (with_set (Mux (if which_eqb w READ || which_eqb w ACCEPT then Z.clearbit (read_or_accept m) fd else read_or_accept m) (if which_eqb w URGENT || which_eqb w INTERRUPT then Z.clearbit (urgent_or_interrupt m) fd else urgent_or_interrupt m) (sets m) (mask m)) w (set_normalize s1)), fd.
  split; [destruct w; cbn [which_eqb orb bind]; rewrite E; reflexivity|]. split; [reflexivity|]. split; [|split; [reflexivity|split; reflexivity]].
  intros v. unfold with_set, update. cbn [sets]. destruct (which_eqb_spec v w) as [->|]; [exact SI|apply S].
Qed.

Lemma minv_mask m g mk : minv m g -> minv (Mux (read_or_accept m) (urgent_or_interrupt m) (sets m) mk) g.
Proof. intros V. exact V. Qed.

Lemma unregister_ok m g w fd g' e : minv m g -> r_step g (Unregister w fd) = Some (g', e) -> exists m' rc, mux_unregister m w fd = Some (m', rc) /\ e = Returns rc /\ minv m' g'.
Proof.
  intros (S & RA & UI) E. destruct (unregister_raw m g w fd S) as (m' & rc & EU & ERC & SI & ER & EI & _). exists m', rc. split; [exact EU|]. cbn [r_step] in E.
  destruct (mem fd (g w)) eqn:M.
  - destruct (shared g w fd) eqn:SH; [discriminate|]. injection E as <- <-. split; [congruence|]. split; [exact SI|]. rewrite ER, EI. cbn [andb]. apply mem_In in M. pose proof (proj1 (proj2 (S w)) fd M) as F.
    unfold shared in SH. split.
    + destruct w; cbn [which_eqb orb partner] in *; try exact RA; apply mem_not in SH; (apply (set_is_ext _ (fun x => (In x (g READ) \/ In x (g ACCEPT)) /\ x <> fd)); [apply clearbit_is; [lia|exact RA]|]);
        unfold update; cbn [which_eqb]; intros x; rewrite without_In; intuition congruence.
    + destruct w; cbn [which_eqb orb partner] in *; try exact UI; apply mem_not in SH; (apply (set_is_ext _ (fun x => (In x (g URGENT) \/ In x (g INTERRUPT)) /\ x <> fd)); [apply clearbit_is; [lia|exact UI]|]);
        unfold update; cbn [which_eqb]; intros x; rewrite without_In; intuition congruence.
  - injection E as <- <-. split; [congruence|]. apply mem_not in M. split; [|rewrite ER, EI; cbn [andb]; auto]. intros v. specialize (SI v). unfold update in SI. destruct (which_eqb_spec v w) as [EQ|]; [rewrite without_id in SI by exact M; rewrite EQ in *; exact SI|exact SI].
Qed.
