From Coq Require Import ZArith List Bool Arith Lia.
From Verif Require Import CInt CUtil MuxModel MuxSpec MuxProofs MuxProofs2 MuxProofs3 MuxProofs4 MuxProofs5 PollModel PollSpec.
Import ListNotations.
Local Open Scope Z_scope.

Definition all_inv (m : mux) (g : registry) : Prop := forall w, sinv (sets m w) (g w).

(** * Registering, without what the sets share *)

Lemma register_raw m g w fd : all_inv m g -> exists m' rc, mux_register m w fd = Some (m', rc) /\
  ((rc = fd /\ 0 <= fd < 1024 /\ ~ In fd (g w) /\ all_inv m' (update g w (fd :: g w))) \/ (rc = -1 /\ m' = m /\ ((0 <=? fd) && (fd <? 1024) && negb (mem fd (g w)) = false))) /\
  (forall v x, Z.testbit (ready (sets m' v)) x = true -> Z.testbit (ready (sets m v)) x = true).
Proof.
  intros S. unfold mux_register. change FD_SETSIZE with 1024. unfold fd_isset, fd_set, fd_clr. rewrite !in_size.
  destruct ((0 <=? fd) && (fd <? 1024)) eqn:IR; cbn [negb andb]; [|exists m, (-1); split; [reflexivity|split; [right; auto|auto]]].
  apply andb_true_iff in IR as (I1 & I2). apply Z.leb_le in I1. apply Z.ltb_lt in I2. destruct (S w) as (A & R & B). cbn [bind].
  destruct (Z.testbit (active (sets m w)) fd) eqn:T.
  { assert (M : mem fd (g w) = true) by (apply mem_In, A; [exact I1|exact T]). rewrite M. exists m, (-1). split; [reflexivity|split; [right; auto|auto]]. }
  assert (N : ~ In fd (g w)) by (intros C; apply A in C; [congruence|exact I1]).
  exists (with_set (Mux (if which_eqb w READ || which_eqb w ACCEPT then Z.setbit (read_or_accept m) fd else read_or_accept m) (if which_eqb w URGENT || which_eqb w INTERRUPT then Z.setbit (urgent_or_interrupt m) fd else urgent_or_interrupt m) (sets m) (mask m)) w
    (MSet (Z.setbit (active (sets m w)) fd) (Z.clearbit (ready (sets m w)) fd) (if fd <? min (sets m w) then fd else min (sets m w)) (if fd >? max (sets m w) then fd else max (sets m w)) (next (sets m w)))), fd.
  split; [destruct w; reflexivity|]. split.
  - left. split; [reflexivity|]. split; [lia|]. split; [exact N|]. intros v. unfold with_set, update. cbn [sets]. destruct (which_eqb_spec v w) as [EQ|]; [apply register_set; [apply S|lia|exact N]|apply S].
  - intros v x. unfold with_set. cbn [sets]. destruct (which_eqb_spec v w) as [EQ|]; [rewrite EQ|auto]. cbn [ready]. destruct (Z_lt_dec x 0); [rewrite !Z.testbit_neg_r by lia; auto|]. rewrite Z.clearbit_eqb by lia. intros K. apply andb_true_iff in K as (K & _). exact K.
Qed.
Lemma unregister_not m g w fd : all_inv m g -> mem fd (g w) = false -> mux_unregister m w fd = Some (m, -1).
Proof.
  intros S M. destruct (S w) as (A & R & B). unfold mux_unregister. change FD_SETSIZE with 1024. unfold fd_isset. rewrite in_size.
  destruct ((0 <=? fd) && (fd <? 1024)) eqn:IR; cbn [negb]; [|reflexivity]. cbn [bind].
  apply andb_true_iff in IR as (I1 & I2). apply Z.leb_le in I1. destruct (Z.testbit (active (sets m w)) fd) eqn:T; [|reflexivity].
  apply A in T; [|exact I1]. apply mem_In in T. congruence.
Qed.

Lemma sinv_ext s l k : sinv s l -> (forall x, In x l <-> In x k) -> sinv s k.
Proof.
  intros (A & R & B) E. split; [|split].
  - apply (set_is_ext _ _ _ A E).
  - intros fd I. apply R, E, I.
  - destruct l as [|x l], k as [|y k].
    + exact B.
    + destruct (proj2 (E y)). left. reflexivity.
    + destruct (proj1 (E x)). left. reflexivity.
    + destruct B as (B1 & B2 & B3 & B4). split; [apply E, B1|]. split; [apply E, B2|]. split; [intros fd I; apply B3, E, I|exact B4].
Qed.

Lemma without_twice fd l : without fd (without fd l) = without fd l.
Proof. apply without_id. rewrite without_In. tauto. Qed.

Lemma close_raw m g fd closed : all_inv m g -> exists m' rc, mux_close m fd closed = Some (m', rc) /\
  rc = (if closed <? 0 then -1 else if existsb (fun w => mem fd (g w)) [READ; WRITE; ACCEPT; URGENT; INTERRUPT] then 0 else -2) /\
  all_inv m' (fun w => without fd (g w)) /\
  (existsb (fun w => mem fd (g w)) [READ; WRITE; ACCEPT; URGENT; INTERRUPT] = false -> m' = m) /\
  (forall v x, Z.testbit (ready (sets m' v)) x = true -> Z.testbit (ready (sets m v)) x = true /\ (In fd (g v) -> x <> fd)).
Proof.
  intros S. unfold mux_close.
  assert (SG : forall m g w rc, all_inv m g -> rc = (if mem fd (g w) then fd else -1) -> (rc <? 0) = negb (mem fd (g w))).
  { intros m0 g0 w rc S0 ->. destruct (mem fd (g0 w)) eqn:M; [|reflexivity]. apply mem_In in M. destruct (S0 w) as (_ & R & _). specialize (R fd M). destruct (Z.ltb_spec fd 0); [lia|reflexivity]. }
  assert (RD : forall m g w m' rc, all_inv m g -> mux_unregister m w fd = Some (m', rc) -> rc = (if mem fd (g w) then fd else -1) -> forall v x, Z.testbit (ready (sets m' v)) x = true -> Z.testbit (ready (sets m v)) x = true /\ (v = w -> In fd (g w) -> x <> fd)).
  { intros m0 g0 w m' rc S0 E ERC v x T. destruct (unregister_ready m0 w fd m' rc E v x T) as (T1 & T2). split; [exact T1|]. intros EV I. apply T2; [exact EV|]. rewrite ERC, (proj2 (mem_In _ _) I). destruct (S0 w) as (_ & R & _). specialize (R fd I). lia. }
  destruct (unregister_raw m g ACCEPT fd S) as (m1 & r1 & E1 & F1 & S1 & _). rewrite E1. cbn [bind]. set (g1 := update g ACCEPT (without fd (g ACCEPT))) in *.
  destruct (unregister_raw m1 g1 READ fd S1) as (m2 & r2 & E2 & F2 & S2 & _). rewrite E2. cbn [bind]. set (g2 := update g1 READ (without fd (g1 READ))) in *.
  destruct (unregister_raw m2 g2 WRITE fd S2) as (m3 & r3 & E3 & F3 & S3 & _). rewrite E3. cbn [bind]. set (g3 := update g2 WRITE (without fd (g2 WRITE))) in *.
  destruct (unregister_raw m3 g3 URGENT fd S3) as (m4 & r4 & E4 & F4 & S4 & _). rewrite E4. cbn [bind]. set (g4 := update g3 URGENT (without fd (g3 URGENT))) in *.
  destruct (unregister_raw m4 g4 INTERRUPT fd S4) as (m5 & r5 & E5 & F5 & S5 & _). rewrite E5. cbn [bind].
  exists m5. eexists. split; [reflexivity|]. split; [|split; [|split]].
  - rewrite (SG _ _ _ _ S F1), (SG _ _ _ _ S1 F2), (SG _ _ _ _ S2 F3), (SG _ _ _ _ S3 F4), (SG _ _ _ _ S4 F5).
    change (g4 INTERRUPT) with (g INTERRUPT). change (g3 URGENT) with (g URGENT). change (g2 WRITE) with (g WRITE). change (g1 READ) with (g READ). cbn [existsb].
    destruct (closed <? 0); [reflexivity|]. destruct (mem fd (g ACCEPT)), (mem fd (g READ)), (mem fd (g WRITE)), (mem fd (g URGENT)), (mem fd (g INTERRUPT)); reflexivity.
  - intros w. specialize (S5 w). destruct w; exact S5.
  - cbn [existsb]. intros K. repeat (apply orb_false_iff in K as (? & K)).
    rewrite (unregister_not m g ACCEPT fd S) in E1 by assumption. injection E1 as <- <-.
    rewrite (unregister_not m g1 READ fd S1) in E2 by assumption. injection E2 as <- <-.
    rewrite (unregister_not m g2 WRITE fd S2) in E3 by assumption. injection E3 as <- <-.
    rewrite (unregister_not m g3 URGENT fd S3) in E4 by assumption. injection E4 as <- <-.
    rewrite (unregister_not m g4 INTERRUPT fd S4) in E5 by assumption. injection E5 as <- <-. reflexivity.
  - intros v x T. destruct (RD _ _ _ _ _ S4 E5 F5 v x T) as (T5 & K5). destruct (RD _ _ _ _ _ S3 E4 F4 v x T5) as (T4 & K4). destruct (RD _ _ _ _ _ S2 E3 F3 v x T4) as (T3 & K3). destruct (RD _ _ _ _ _ S1 E2 F2 v x T3) as (T2 & K2). destruct (RD _ _ _ _ _ S E1 F1 v x T2) as (T1 & K1).
    split; [exact T1|]. intros I. destruct v; [apply K2|apply K3|apply K1|apply K4|apply K5]; try reflexivity; exact I.
Qed.

(** * The bounds *)

Definition bounds_of (m : mux) : Z * Z := fold_left poll_bounds (map (sets m) [READ; WRITE; ACCEPT; URGENT; INTERRUPT]) (MOSTPOSITIVE, MOSTNEGATIVE).
Lemma bounds_fold : forall ss b, let r := fold_left poll_bounds ss b in
  fst r <= fst b /\ snd b <= snd r /\ (forall s, In s ss -> fst r <= min s /\ max s <= snd r) /\ (fst r = fst b \/ exists s, In s ss /\ fst r = min s) /\ (snd r = snd b \/ exists s, In s ss /\ snd r = max s).
Proof.
  induction ss as [|s ss IH]; intros b r; [unfold r; cbn; split; [lia|]; split; [lia|]; split; [intros s []|]; split; left; reflexivity|].
  unfold r. cbn [fold_left]. destruct (IH (poll_bounds b s)) as (H1 & H2 & H3 & H4 & H5). clear IH r.
  assert (B : fst (poll_bounds b s) <= fst b /\ fst (poll_bounds b s) <= min s /\ (fst (poll_bounds b s) = fst b \/ fst (poll_bounds b s) = min s)).
  { unfold poll_bounds. cbn [fst]. destruct (Z.ltb_spec (min s) (fst b)); lia. }
  assert (C : snd b <= snd (poll_bounds b s) /\ max s <= snd (poll_bounds b s) /\ (snd (poll_bounds b s) = snd b \/ snd (poll_bounds b s) = max s)).
  { unfold poll_bounds. cbn [snd]. rewrite Z.gtb_ltb. destruct (Z.ltb_spec (snd b) (max s)); lia. }
  split; [lia|]. split; [lia|]. split; [|split].
  - intros t [<-|I]; [lia|apply H3, I].
  - destruct H4 as [H4|(t & I & H4)]; [|right; exists t; split; [right; exact I|exact H4]]. destruct B as (_ & _ & [B|B]); [left; lia|right; exists s; split; [left; reflexivity|lia]].
  - destruct H5 as [H5|(t & I & H5)]; [|right; exists t; split; [right; exact I|exact H5]]. destruct C as (_ & _ & [C|C]); [left; lia|right; exists s; split; [left; reflexivity|lia]].
Qed.
Lemma which_in w : In w [READ; WRITE; ACCEPT; URGENT; INTERRUPT]. Proof. destruct w; cbn; tauto. Qed.
Lemma bounds_ok m g : all_inv m g ->
  ((forall fd, ~ known g fd) /\ bounds_of m = (MOSTPOSITIVE, MOSTNEGATIVE)) \/
  (known g (fst (bounds_of m)) /\ known g (snd (bounds_of m)) /\ (forall w fd, In fd (g w) -> fst (bounds_of m) <= min (sets m w) <= fd /\ fd <= max (sets m w) <= snd (bounds_of m)) /\ 0 <= fst (bounds_of m) <= snd (bounds_of m) /\ snd (bounds_of m) < 1024).
Proof.
  intros S. destruct (bounds_fold (map (sets m) [READ; WRITE; ACCEPT; URGENT; INTERRUPT]) (MOSTPOSITIVE, MOSTNEGATIVE)) as (H1 & H2 & H3 & H4 & H5). fold (bounds_of m) in *. cbn [fst snd] in *.
  assert (K : forall w, In (sets m w) (map (sets m) [READ; WRITE; ACCEPT; URGENT; INTERRUPT])) by (intros w; apply in_map, which_in).
  assert (E : forall w, g w = [] -> min (sets m w) = MOSTPOSITIVE /\ max (sets m w) = MOSTNEGATIVE) by (intros w G; destruct (S w) as (_ & _ & B); rewrite G in B; tauto).
  assert (NE : forall w, g w <> [] -> In (min (sets m w)) (g w) /\ In (max (sets m w)) (g w) /\ (forall fd, In fd (g w) -> 0 <= fd < 1024 /\ min (sets m w) <= fd <= max (sets m w))).
  { intros w G. destruct (S w) as (_ & R & B). destruct (g w) as [|x l]; [contradiction|]. destruct B as (B1 & B2 & B3 & _). split; [exact B1|]. split; [exact B2|]. intros fd I. split; [apply R, I|apply B3, I]. }
  assert (D : (forall fd, ~ known g fd) \/ exists w, g w <> []).
  { destruct (g READ) eqn:G1; [|right; exists READ; congruence]. destruct (g WRITE) eqn:G2; [|right; exists WRITE; congruence]. destruct (g ACCEPT) eqn:G3; [|right; exists ACCEPT; congruence]. destruct (g URGENT) eqn:G4; [|right; exists URGENT; congruence]. destruct (g INTERRUPT) eqn:G5; [|right; exists INTERRUPT; congruence].
    left. intros fd (w & I). destruct w; rewrite ?G1, ?G2, ?G3, ?G4, ?G5 in I; destruct I. }
  destruct D as [D|(w & W)].
  - left. split; [exact D|]. assert (A : forall w, g w = []) by (intros w; destruct (g w) as [|x l] eqn:G; [reflexivity|destruct (D x); exists w; rewrite G; left; reflexivity]).
    rewrite (surjective_pairing (bounds_of m)). f_equal.
    + destruct H4 as [H4|(s & I & H4)]; [exact H4|]. apply in_map_iff in I as (v & <- & _). rewrite H4. apply E, A.
    + destruct H5 as [H5|(s & I & H5)]; [exact H5|]. apply in_map_iff in I as (v & <- & _). rewrite H5. apply E, A.
  - right. destruct (NE w W) as (N1 & N2 & N3). destruct (H3 _ (K w)) as (L1 & L2). destruct (N3 _ N1) as (M1 & _). destruct (N3 _ N2) as (M2 & _).
    assert (KL : known g (fst (bounds_of m)) /\ 0 <= fst (bounds_of m) < 1024).
    { destruct H4 as [H4|(s & I & H4)]; [unfold MOSTPOSITIVE in *; lia|]. apply in_map_iff in I as (v & <- & _). destruct (g v) as [|y l] eqn:G; [destruct (E v G) as (E1 & _); unfold MOSTPOSITIVE in *; lia|]. destruct (NE v) as (V1 & V2 & V3); [congruence|]. rewrite H4. split; [exists v; exact V1|apply V3, V1]. }
    assert (KH : known g (snd (bounds_of m)) /\ 0 <= snd (bounds_of m) < 1024).
    { destruct H5 as [H5|(s & I & H5)]; [unfold MOSTNEGATIVE in *; lia|]. apply in_map_iff in I as (v & <- & _). destruct (g v) as [|y l] eqn:G; [destruct (E v G) as (_ & E1); unfold MOSTNEGATIVE in *; lia|]. destruct (NE v) as (V1 & V2 & V3); [congruence|]. rewrite H5. split; [exists v; exact V2|apply V3, V2]. }
    split; [apply KL|]. split; [apply KH|]. split; [|pose proof (N3 _ N1); lia].
    intros v fd I. destruct (NE v) as (V1 & V2 & V3); [intros G; rewrite G in I; destruct I|]. destruct (H3 _ (K v)). destruct (V3 fd I). lia.
Qed.

(** * The layout of the array *)

Definition entry (ev : Z -> option Z) (x : Z) : Z * Z := match ev x with Some e => (x, e) | None => (-1, 0) end.
(** The array from [lo] on is laid out for these events. *)
Definition lay (l : list (option slot)) (lo : Z) (ev : Z -> option Z) : Prop :=
  forall i, 0 <= i < Z.of_nat (length l) -> exists rv, slot_at l i = Some (Slot (fst (entry ev (lo + i))) (snd (entry ev (lo + i))) rv).

Lemma slot_put_ok l i s : 0 <= i < Z.of_nat (length l) -> exists l', slot_put l i s = Some l' /\ length l' = length l /\
  (forall j, 0 <= j -> slot_at l' j = if j =? i then Some s else slot_at l j).
Proof.
  intros B. unfold slot_put. destruct (Z.ltb_spec i 0); [lia|]. destruct (Z.leb_spec (Z.of_nat (length l)) i); [lia|]. cbn [orb]. eexists. split; [reflexivity|].
  assert (L : length (firstn (Z.to_nat i) l) = Z.to_nat i) by (rewrite firstn_length; lia).
  split; [rewrite app_length; cbn [length]; rewrite L, skipn_length; lia|].
  intros j J. unfold slot_at. destruct (Z.ltb_spec j 0); [lia|]. destruct (Z.eqb_spec j i) as [->|NE].
  - rewrite nth_error_app2, L, Nat.sub_diag by lia. reflexivity.
  - destruct (Z_lt_dec j i).
    + rewrite nth_error_app1 by lia. rewrite <- (firstn_skipn (Z.to_nat i) l) at 2. rewrite nth_error_app1 by lia. reflexivity.
    + rewrite nth_error_app2, L by lia. rewrite <- (firstn_skipn (S (Z.to_nat i)) l) at 2.
      assert (L2 : length (firstn (S (Z.to_nat i)) l) = S (Z.to_nat i)) by (rewrite firstn_length; lia).
      rewrite nth_error_app2, L2 by lia. replace (Z.to_nat j - Z.to_nat i)%nat with (S (Z.to_nat j - S (Z.to_nat i)))%nat by lia. reflexivity.
Qed.

Definition plus (ev : Z -> option Z) (p : Z -> bool) (mask : Z) : Z -> option Z :=
  fun x => if p x then Some (Z.lor (match ev x with Some e => e | None => 0 end) mask) else ev x.
Lemma lay_ext l lo ev ev' : lay l lo ev -> (forall x, lo <= x < lo + Z.of_nat (length l) -> ev x = ev' x) -> lay l lo ev'.
Proof. intros L E i I. destruct (L i I) as (rv & H). exists rv. rewrite H. unfold entry. rewrite (E (lo + i)) by lia. reflexivity. Qed.

Lemma before_loop_ok act mask : forall n fd lo l ev, lay l lo ev -> lo <= fd -> fd + Z.of_nat n <= lo + Z.of_nat (length l) -> 0 <= fd -> fd + Z.of_nat n <= 1024 ->
  exists l', before_loop n fd act lo mask l = Some l' /\ length l' = length l /\ lay l' lo (plus ev (fun x => (fd <=? x) && (x <? fd + Z.of_nat n) && Z.testbit act x) mask).
Proof.
  induction n as [|n IH]; intros fd lo l ev L B1 B2 B3 B4.
  - exists l. split; [reflexivity|]. split; [reflexivity|]. apply (lay_ext l lo ev _ L). intros x X. unfold plus. destruct (Z.leb_spec fd x); [|reflexivity]. destruct (Z.ltb_spec x (fd + Z.of_nat 0)); [lia|reflexivity].
  - cbn [before_loop]. unfold fd_isset. rewrite in_size. destruct (Z.leb_spec 0 fd); [|lia]. destruct (Z.ltb_spec fd 1024); [|lia]. cbn [andb bind].
    assert (ST : exists l1, (if Z.testbit act fd then let* s := slot_at l (fd - lo) in slot_put l (fd - lo) (Slot fd (Z.lor (s_events s) mask) (s_revents s)) else Some l) = Some l1 /\ length l1 = length l /\ lay l1 lo (plus ev (fun x => (fd =? x) && Z.testbit act x) mask)).
    { destruct (Z.testbit act fd) eqn:T.
      - destruct (L (fd - lo)) as (rv & E); [lia|]. rewrite E. cbn [bind s_events s_revents]. replace (lo + (fd - lo)) with fd in * by lia.
        destruct (slot_put_ok l (fd - lo) (Slot fd (Z.lor (snd (entry ev fd)) mask) rv)) as (l1 & E1 & L1 & P1); [lia|]. exists l1. split; [exact E1|]. split; [exact L1|].
        intros i I. rewrite L1 in I. rewrite P1 by lia. destruct (Z.eqb_spec i (fd - lo)) as [->|NE].
        + exists rv. replace (lo + (fd - lo)) with fd by lia. unfold entry, plus. rewrite Z.eqb_refl, T. cbn [andb fst snd]. destruct (ev fd); reflexivity.
        + destruct (L i I) as (rv' & E'). exists rv'. rewrite E'. unfold entry, plus. destruct (Z.eqb_spec fd (lo + i)); [lia|]. reflexivity.
      - exists l. split; [reflexivity|]. split; [reflexivity|]. apply (lay_ext l lo ev _ L). intros x X. unfold plus. destruct (Z.eqb_spec fd x) as [<-|]; [rewrite T|]; reflexivity. }
    destruct ST as (l1 & -> & L1 & Y1). cbn [bind]. destruct (IH (fd + 1) lo l1 _ Y1) as (l2 & E2 & L2 & Y2); [lia|lia|lia|lia|].
    exists l2. split; [exact E2|]. split; [lia|]. apply (lay_ext l2 lo _ _ Y2). intros x X. unfold plus.
    destruct (Z.eqb_spec fd x) as [<-|NE].
    + destruct (Z.leb_spec (fd + 1) fd); [lia|]. destruct (Z.leb_spec fd fd); [|lia]. destruct (Z.ltb_spec fd (fd + Z.of_nat (S n))); [|lia]. reflexivity.
    + cbn [andb]. destruct (Z.leb_spec (fd + 1) x), (Z.leb_spec fd x); try lia; [|reflexivity]. destruct (Z.ltb_spec x (fd + 1 + Z.of_nat n)), (Z.ltb_spec x (fd + Z.of_nat (S n))); try lia; reflexivity.
Qed.

(** One set. *)
Lemma before_ok m g w lo mask l ev : all_inv m g -> (forall fd, In fd (g w) -> lo <= min (sets m w) /\ max (sets m w) < lo + Z.of_nat (length l)) -> lay l lo ev ->
  exists l', poll_before lo (sets m w) mask l = Some l' /\ length l' = length l /\ lay l' lo (plus ev (fun x => mem x (g w)) mask).
Proof.
  intros S B L. destruct (S w) as (A & R & K). unfold poll_before. rewrite Z.geb_leb. destruct (g w) as [|y k] eqn:G.
  - destruct K as (_ & -> & _). exists l. split; [reflexivity|]. split; [reflexivity|]. exact L.
  - destruct K as (K1 & K2 & K3 & _). pose proof (R _ K1) as R1. pose proof (R _ K2) as R2. destruct (Z.leb_spec 0 (max (sets m w))); [|lia]. destruct (B y) as (B1 & B2); [left; reflexivity|]. specialize (K3 _ K1) as K4.
    destruct (before_loop_ok (active (sets m w)) mask (Z.to_nat (max (sets m w) - min (sets m w) + 1)) (min (sets m w)) lo l ev L) as (l' & E & L' & Y); [lia|lia|lia|lia|].
    exists l'. split; [exact E|]. split; [exact L'|]. apply (lay_ext l' lo _ _ Y). intros x X. unfold plus.
    replace ((min (sets m w) <=? x) && (x <? min (sets m w) + Z.of_nat (Z.to_nat (max (sets m w) - min (sets m w) + 1))) && Z.testbit (active (sets m w)) x) with (mem x (y :: k)); [reflexivity|].
    destruct (mem x (y :: k)) eqn:M.
    + apply mem_In in M. specialize (K3 _ M). specialize (R _ M). destruct (Z.leb_spec (min (sets m w)) x); [|lia]. destruct (Z.ltb_spec x (min (sets m w) + Z.of_nat (Z.to_nat (max (sets m w) - min (sets m w) + 1)))); [|lia]. cbn [andb]. symmetry. apply A; [lia|exact M].
    + symmetry. apply not_true_iff_false. intros T. apply andb_true_iff in T as (T1 & T2). apply andb_true_iff in T1 as (T1 & _). apply Z.leb_le in T1. apply A in T2; [|lia]. apply mem_In in T2. congruence.
Qed.

(** The events of the registry. *)
Definition knownb (g : registry) (fd : Z) : bool := existsb (fun w => mem fd (g w)) [READ; WRITE; ACCEPT; URGENT; INTERRUPT].
Lemma knownb_known g fd : knownb g fd = true <-> known g fd.
Proof.
  unfold knownb, known. rewrite existsb_exists. split.
  - intros (w & _ & M). exists w. apply mem_In, M.
  - intros (w & I). exists w. split; [apply which_in|apply mem_In, I].
Qed.
Definition evs (g : registry) (x : Z) : option Z := if knownb g x then Some (wanted g x) else None.
Lemma plus_all g x : plus (plus (plus (plus (plus (fun _ => None) (fun x => mem x (g READ)) POLLIN) (fun x => mem x (g WRITE)) POLLOUT) (fun x => mem x (g ACCEPT)) POLLIN) (fun x => mem x (g URGENT)) POLLPRI) (fun x => mem x (g INTERRUPT)) POLLPRI x = evs g x.
Proof. unfold plus, evs, knownb, wanted. cbn [existsb]. destruct (mem x (g READ)), (mem x (g WRITE)), (mem x (g ACCEPT)), (mem x (g URGENT)), (mem x (g INTERRUPT)); reflexivity. Qed.

Lemma reset_lay (l : list (option slot)) lo : lay (map (fun _ => Some (Slot (-1) 0 0)) l) lo (fun _ => None).
Proof.
  intros i I. exists 0. rewrite map_length in I. unfold slot_at. destruct (Z.ltb_spec i 0); [lia|].
  rewrite nth_error_map. destruct (nth_error l (Z.to_nat i)) eqn:E; [reflexivity|]. apply nth_error_None in E. lia.
Qed.

(** ** What is asked for *)

Lemma nth_error_same {A} : forall l k : list A, (forall n, nth_error l n = nth_error k n) -> l = k.
Proof.
  induction l as [|x l IH]; intros [|y k] E; [reflexivity|discriminate (E 0%nat)|discriminate (E 0%nat)|].
  f_equal; [specialize (E 0%nat); cbn in E; congruence|apply IH; intros n; exact (E (S n))].
Qed.
Lemma lay_list l lo ev : lay l lo ev -> map (option_map (fun s => (s_fd s, s_events s))) l = map (fun i => Some (entry ev (lo + Z.of_nat i))) (seq 0 (length l)).
Proof.
  intros L. apply nth_error_same. intros n. rewrite !nth_error_map.
  destruct (lt_dec n (length l)) as [N|N].
  - destruct (L (Z.of_nat n)) as (rv & E); [lia|]. unfold slot_at in E. destruct (Z.ltb_spec (Z.of_nat n) 0); [lia|]. rewrite Nat2Z.id in E.
    destruct (nth_error l n) as [[s|]|]; try discriminate. injection E as ->. cbn [option_map s_fd s_events].
    rewrite (nth_error_nth' (seq 0 (length l)) 0%nat) by (rewrite seq_length; exact N). rewrite seq_nth by exact N. cbn [option_map]. rewrite Nat.add_0_l. rewrite <- surjective_pairing. reflexivity.
  - rewrite (proj2 (nth_error_None l n)) by lia. rewrite (proj2 (nth_error_None (seq 0 (length l)) n)) by (rewrite seq_length; lia). reflexivity.
Qed.
Lemma asked_map : forall l a, map (option_map (fun s => (s_fd s, s_events s))) l = map Some a -> asked l = Some a.
Proof.
  induction l as [|[s|] l IH]; intros [|x a] E; try discriminate; [reflexivity|]. cbn [map option_map] in E. injection E as E1 E2. cbn [asked]. rewrite (IH a E2). cbn [bind]. rewrite E1. reflexivity.
Qed.
Definition entries (g : registry) (lo : Z) (n : nat) : list (Z * Z) := map (fun i => entry (evs g) (lo + Z.of_nat i)) (seq 0 n).
Lemma firstn_seq : forall n m a, (n <= m)%nat -> firstn n (seq a m) = seq a n.
Proof. induction n as [|n IH]; intros [|m] a L; try reflexivity; [lia|]. cbn [seq firstn]. f_equal. apply IH. lia. Qed.
Lemma asked_lay l lo g n : lay l lo (evs g) -> (n <= length l)%nat -> asked (firstn n l) = Some (entries g lo n).
Proof.
  intros L N. apply asked_map. rewrite <- firstn_map, (lay_list l lo _ L), firstn_map, firstn_seq by exact N. unfold entries. rewrite map_map. reflexivity.
Qed.

Lemma entries_ask m g : all_inv m g -> asks_for g (entries g (fst (bounds_of m)) (Z.to_nat (if fst (bounds_of m) <=? snd (bounds_of m) then snd (bounds_of m) - fst (bounds_of m) + 1 else 0))).
Proof.
  intros S. unfold asks_for. destruct (bounds_ok m g S) as [(N & B)|(B1 & B2 & B3 & B4 & B5)].
  - rewrite B. cbn. split; [intros fd e []|]. split; [intros fd K; destruct (N fd K)|constructor].
  - destruct (Z.leb_spec (fst (bounds_of m)) (snd (bounds_of m))); [|lia]. set (lo := fst (bounds_of m)) in *. set (hi := snd (bounds_of m)) in *. unfold entries. split; [|split].
    + intros fd e I. apply in_map_iff in I as (i & E & _). unfold entry, evs in E. destruct (knownb g (lo + Z.of_nat i)) eqn:K; injection E as <- <-; [right; split; [apply knownb_known, K|reflexivity]|left; lia].
    + intros fd K. apply in_map_iff. pose proof K as (w & I). destruct (B3 w fd I) as (B6 & B7). exists (Z.to_nat (fd - lo)). split; [|apply in_seq; lia].
      replace (lo + Z.of_nat (Z.to_nat (fd - lo))) with fd by lia. unfold entry, evs. rewrite (proj2 (knownb_known g fd) K). reflexivity.
    + clear -B4. assert (G : forall n a, NoDup (filter (fun fd => 0 <=? fd) (map fst (map (fun i => entry (evs g) (lo + Z.of_nat i)) (seq a n)))) /\ forall x, In x (filter (fun fd => 0 <=? fd) (map fst (map (fun i => entry (evs g) (lo + Z.of_nat i)) (seq a n)))) -> lo + Z.of_nat a <= x).
      { induction n as [|n IH]; intros a; [split; [constructor|intros x []]|]. destruct (IH (S a)) as (I1 & I2). cbn [seq map]. unfold entry at 1 3. destruct (evs g (lo + Z.of_nat a)); cbn [fst filter].
        - destruct (Z.leb_spec 0 (lo + Z.of_nat a)); [|split; [exact I1|intros x I; specialize (I2 x I); lia]]. split; [constructor; [intros I; specialize (I2 _ I); lia|exact I1]|]. intros x [<-|I]; [lia|specialize (I2 x I); lia].
        - split; [exact I1|intros x I; specialize (I2 x I); lia]. }
      apply G.
Qed.
