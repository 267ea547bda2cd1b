(** Lemmas on the driver. *)

From Coq Require Import ZArith List Bool Lia.
From Verif Require Import CInt CUtil DriverModel DriverSpec.
Import ListNotations.
Local Open Scope Z_scope.

Lemma nth_replace i j t l : nth_error (replace i t l) j = if Nat.eqb i j then (if nth_error l i then Some t else None) else nth_error l j.
Proof.
  revert i j. induction l as [|u l IH]; intros i j.
  - destruct i; cbn [replace]; destruct j; cbn; try destruct (Nat.eqb _ _); reflexivity.
  - destruct i, j; cbn [replace nth_error Nat.eqb]; try reflexivity. apply IH.
Qed.

Lemma valid_iff w : valid w = true <-> In w [1; 2; 4; 8].
Proof. unfold valid. rewrite !orb_true_iff, !Z.eqb_eq. cbn. intuition lia. Qed.
Lemma aligned_iff a w : In w [1; 2; 4; 8] -> (misaligned a w = false <-> a mod w = 0).
Proof.
  intros W. unfold misaligned. rewrite negb_false_iff, Z.eqb_eq.
  assert (E : Z.land a (w - 1) = a mod w).
  { destruct W as [<-|[<-|[<-|[<-|[]]]]]; [change (1 - 1) with (Z.ones 0)|change (2 - 1) with (Z.ones 1)|change (4 - 1) with (Z.ones 2)|change (8 - 1) with (Z.ones 3)]; rewrite Z.land_ones by lia; reflexivity. }
  rewrite E. reflexivity.
Qed.
Lemma width_pos w : In w [1; 2; 4; 8] -> 0 < w <= 8.
Proof. cbn. lia. Qed.

Lemma load_length n : forall m p, length (load m p n) = n.
Proof. induction n as [|n IH]; intros m p; cbn [load length]; [reflexivity|]. rewrite IH. reflexivity. Qed.
Lemma load_nth n : forall m p k, (k < n)%nat -> nth k (load m p n) 0 = m (p + Z.of_nat k).
Proof.
  induction n as [|n IH]; intros m p k K; [lia|]. cbn [load]. destruct k as [|k]; cbn [nth]; [f_equal; lia|]. rewrite IH by lia. f_equal. lia.
Qed.
Lemma store_at l : forall m p a, store m p l a = if (p <=? a) && (a <? p + Z.of_nat (length l)) then nth (Z.to_nat (a - p)) l 0 else m a.
Proof.
  induction l as [|x l IH]; intros m p a; cbn [store length].
  - destruct (Z.leb_spec p a), (Z.ltb_spec a (p + Z.of_nat 0)); cbn [andb]; try lia; reflexivity.
  - rewrite IH. destruct (Z.eqb_spec a p) as [->|N].
    + destruct (Z.leb_spec (p + 1) p); [lia|]. cbn [andb]. destruct (Z.leb_spec p p); [|lia]. destruct (Z.ltb_spec p (p + Z.of_nat (S (length l)))); [|lia]. cbn [andb]. rewrite Z.sub_diag. reflexivity.
    + destruct (Z.leb_spec (p + 1) a) as [A|A], (Z.leb_spec p a) as [B|B]; try lia; cbn [andb]; [|reflexivity].
      replace (a <? p + 1 + Z.of_nat (length l)) with (a <? p + Z.of_nat (S (length l))) by (destruct (Z.ltb_spec a (p + 1 + Z.of_nat (length l))), (Z.ltb_spec a (p + Z.of_nat (S (length l)))); lia).
      destruct (a <? p + Z.of_nat (S (length l))); [|reflexivity]. replace (Z.to_nat (a - p)) with (S (Z.to_nat (a - (p + 1)))) by lia. reflexivity.
Qed.
Lemma nth_firstn (l : list Z) : forall n k, (k < n)%nat -> nth k (firstn n l) 0 = nth k l 0.
Proof. induction l as [|x l IH]; intros n k K; [rewrite firstn_nil; reflexivity|]. destruct n as [|n]; [lia|]. destruct k as [|k]; cbn [firstn nth]; [reflexivity|apply IH; lia]. Qed.
Lemma nth_skipn (l : list Z) : forall n k, nth k (skipn n l) 0 = nth (n + k) l 0.
Proof. induction l as [|x l IH]; intros n k; [rewrite skipn_nil; destruct k, n; reflexivity|]. destruct n as [|n]; cbn [skipn Nat.add nth]; [reflexivity|apply IH]. Qed.

Lemma set_nth old : forall new mask k, (k < length old)%nat -> (length old <= length new)%nat -> (length old <= length mask)%nat ->
  nth k (set_octets old new mask) 0 = Z.lor (Z.land (nth k old 0) (lnot8 (nth k mask 0))) (nth k new 0).
Proof.
  induction old as [|o old IH]; intros new mask k K N M; [cbn in K; lia|]. destruct new as [|n new]; [cbn in N; lia|]. destruct mask as [|b mask]; [cbn in M; lia|].
  cbn [set_octets]. cbn [length] in *. destruct k as [|k]; cbn [nth]; [reflexivity|]. apply IH; lia.
Qed.
Lemma clear_nth old : forall new k, (k < length old)%nat -> (length old <= length new)%nat ->
  nth k (clear_octets old new) 0 = Z.land (nth k old 0) (lnot8 (nth k new 0)).
Proof.
  induction old as [|o old IH]; intros new k K N; [cbn in K; lia|]. destruct new as [|n new]; [cbn in N; lia|].
  cbn [clear_octets]. cbn [length] in *. destruct k as [|k]; cbn [nth]; [reflexivity|]. apply IH; lia.
Qed.
Lemma set_length old : forall new mask, length (set_octets old new mask) = length new.
Proof. induction old as [|o old IH]; intros new mask; [reflexivity|]. destruct new as [|n new]; [reflexivity|]. destruct mask as [|b mask]; [reflexivity|]. cbn [set_octets length]. rewrite IH. reflexivity. Qed.
Lemma clear_length old : forall new, length (clear_octets old new) = length new.
Proof. induction old as [|o old IH]; intros new; [reflexivity|]. destruct new as [|n new]; [reflexivity|]. cbn [clear_octets length]. rewrite IH. reflexivity. Qed.
Lemma lnot8_bit x i : 0 <= i < 8 -> Z.testbit (lnot8 x) i = negb (Z.testbit x i).
Proof.
  intros I. unfold lnot8. rewrite Z.lxor_spec. change 255 with (Z.ones 8). rewrite Z.ones_spec_low by exact I. destruct (Z.testbit x i); reflexivity.
Qed.

Section Inv.
Variables base length : Z.

Lemma get_some m o d : kernel_get m (base + offset o) (width o) (value o) = Some d -> offset o <= length ->
  possible base length o /\ (List.length (value o) = 8%nat -> forall k, (k < 8)%nat -> nth k d 0 = if Z.of_nat k <? width o then m (base + offset o + Z.of_nat k) else nth k (value o) 0).
Proof.
  unfold kernel_get. destruct (valid (width o)) eqn:V; [|discriminate]. cbn [negb]. apply valid_iff in V. destruct (misaligned (base + offset o) (width o)) eqn:A; [discriminate|]. intros E L. injection E as <-.
  apply (aligned_iff _ _ V) in A. split; [split; [exact L|split; assumption]|]. intros VL k K. pose proof (width_pos _ V) as W.
  destruct (Z.ltb_spec (Z.of_nat k) (width o)).
  - rewrite app_nth1 by (rewrite load_length; lia). apply load_nth. lia.
  - rewrite app_nth2 by (rewrite load_length; lia). rewrite load_length, nth_skipn. f_equal. lia.
Qed.
Lemma get_none m o : kernel_get m (base + offset o) (width o) (value o) = None -> ~ possible base length o.
Proof.
  unfold kernel_get. intros E (_ & V & A). pose proof V as V'. apply valid_iff in V'. rewrite V' in E. cbn [negb] in E. apply (aligned_iff _ _ V) in A. rewrite A in E. discriminate E.
Qed.
Lemma put_some m o d m' : kernel_put m (base + offset o) (width o) d = Some m' -> offset o <= length -> List.length d = 8%nat ->
  possible base length o /\ forall a, (within base o a -> m' a = octet_at base o d a) /\ (~ within base o a -> m' a = m a).
Proof.
  unfold kernel_put. destruct (valid (width o)) eqn:V; [|discriminate]. cbn [negb]. apply valid_iff in V. destruct (misaligned (base + offset o) (width o)) eqn:A; [discriminate|]. intros E L D. injection E as <-.
  apply (aligned_iff _ _ V) in A. split; [split; [exact L|split; assumption]|]. pose proof (width_pos _ V) as W.
  intros a. rewrite store_at. rewrite firstn_length_le by lia. rewrite Z2Nat.id by lia. unfold within, octet_at. destruct (Z.leb_spec (base + offset o) a), (Z.ltb_spec a (base + offset o + width o)); cbn [andb]; split; intros Q; try lia; try reflexivity.
  apply nth_firstn. lia.
Qed.
Lemma put_none m o d : kernel_put m (base + offset o) (width o) d = None -> ~ possible base length o.
Proof.
  unfold kernel_put. intros E (_ & V & A). pose proof V as V'. apply valid_iff in V'. rewrite V' in E. cbn [negb] in E. apply (aligned_iff _ _ V) in A. rewrite A in E. discriminate E.
Qed.

(** Where a thread that holds the semaphore is: [m] is the memory before its call. *)
Definition going (t : thread) (m m' : memory) : Prop :=
  match t with
  | Held c _ => m' = m
  | Modify c new _ => m' = m /\ works base length c /\ List.length new = 8%nat /\ gives base c m (arg c) /\
      (forall m'', (forall a, (within base (arg c) a -> m'' a = octet_at base (arg c) new a) /\ (~ within base (arg c) a -> m'' a = m a)) -> becomes base c m m'')
  | Leave c rc user _ => atomic base length c rc user m m'
  | _ => False
  end.

Lemma perform_going m c calls : sized c -> dir_write (cmd c) = true -> let '(t, m') := perform base length m c calls in
  going t m m' /\ (exists new, t = Modify c new calls) \/ going t m m' /\ exists rc user, t = Leave c rc user calls.
Proof.
  intros (S1 & S2 & _ & _) D. unfold perform. rewrite D. cbn [negb andb]. destruct (readable c) eqn:RD; cbn [negb].
  2:{ right. split; [|do 2 eexists; reflexivity]. right. unfold EFAULT. split; [lia|]. split; [right; intros (_ & Q & _); congruence|]. split; reflexivity. }
  cbv zeta. destruct (Z.ltb_spec length (offset (arg c))) as [L|L].
  { right. split; [|do 2 eexists; reflexivity]. right. unfold EINVAL. split; [lia|]. split; [right; intros ((Q & _) & _); lia|]. split; reflexivity. }
  assert (FAIL : forall e, 0 < e -> ~ works base length c -> going (Leave c (- e) (arg c) calls) m m).
  { intros e E N. right. split; [lia|]. split; [right; exact N|]. split; reflexivity. }
  assert (NP : ~ possible base length (arg c) -> ~ works base length c) by (intros N (Q & _); exact (N Q)).
  destruct (cmd c) eqn:C.
  - destruct (kernel_get m (base + offset (arg c)) (width (arg c)) (value (arg c))) as [d|] eqn:G.
    + destruct (get_some _ _ _ G L) as (P & V). destruct (writable c) eqn:W; right; (split; [|do 2 eexists; reflexivity]).
      * left. split; [reflexivity|]. split; [split; [exact P|]; split; [exact RD|]; split; [rewrite C; cbn; tauto|]; intros _; exact W|].
        split; [unfold becomes; rewrite C; intros a; split; reflexivity|]. unfold gives. rewrite C. cbn [offset width mask value]. repeat (split; [reflexivity|]). exact (V S1).
      * apply FAIL; [reflexivity|]. intros (_ & _ & _ & Q). specialize (Q C). congruence.
    + apply (get_none m) in G. right. destruct (writable c); (split; [|do 2 eexists; reflexivity]); (apply FAIL; [reflexivity|apply NP, G]).
  - destruct (kernel_put m (base + offset (arg c)) (width (arg c)) (value (arg c))) as [m'|] eqn:G; right; (split; [|do 2 eexists; reflexivity]).
    + destruct (put_some _ _ _ _ G L S1) as (P & V). left. split; [reflexivity|]. split; [split; [exact P|]; split; [exact RD|]; split; [rewrite C; cbn; tauto|]; congruence|].
      split; [unfold becomes; rewrite C; exact V|]. unfold gives. rewrite C. reflexivity.
    + apply FAIL; [reflexivity|]. apply NP. exact (put_none _ _ _ G).
  - destruct (kernel_get m (base + offset (arg c)) (width (arg c)) (value (arg c))) as [d|] eqn:G.
    + destruct (get_some _ _ _ G L) as (P & V). left. split; [|eexists; reflexivity]. cbn [going]. split; [reflexivity|]. pose proof (width_pos _ (proj1 (proj2 P))) as W.
      split; [split; [exact P|]; split; [exact RD|]; split; [rewrite C; cbn; tauto|]; congruence|]. split; [rewrite set_length; exact S1|]. split; [unfold gives; rewrite C; reflexivity|].
      assert (DL : List.length d = 8%nat).
      { unfold kernel_get in G. destruct (negb (valid (width (arg c)))); [discriminate G|]. destruct (misaligned _ _); [discriminate G|]. injection G as <-. rewrite app_length, load_length, skipn_length. lia. }
      intros m'' H. unfold becomes. rewrite C. intros a. destruct (H a) as (H1 & H2). split; [|exact H2]. intros I i B. rewrite (H1 I). unfold octet_at. unfold within in I.
      assert (FL : List.length (firstn (Z.to_nat (width (arg c))) d) = Z.to_nat (width (arg c))) by (apply firstn_length_le; lia).
      rewrite set_nth by (rewrite ?FL; lia). rewrite Z.lor_spec, Z.land_spec, lnot8_bit by exact B. rewrite nth_firstn by lia. rewrite (V S1) by lia.
      destruct (Z.ltb_spec (Z.of_nat (Z.to_nat (a - (base + offset (arg c))))) (width (arg c))) as [Q|Q]; [|lia]. replace (base + offset (arg c) + Z.of_nat (Z.to_nat (a - (base + offset (arg c))))) with a by lia. reflexivity.
    + right. split; [|do 2 eexists; reflexivity]. apply FAIL; [reflexivity|]. apply NP. exact (get_none _ _ G).
  - destruct (kernel_get m (base + offset (arg c)) (width (arg c)) (value (arg c))) as [d|] eqn:G.
    + destruct (get_some _ _ _ G L) as (P & V). left. split; [|eexists; reflexivity]. cbn [going]. split; [reflexivity|]. pose proof (width_pos _ (proj1 (proj2 P))) as W.
      split; [split; [exact P|]; split; [exact RD|]; split; [rewrite C; cbn; tauto|]; congruence|]. split; [rewrite clear_length; exact S1|]. split; [unfold gives; rewrite C; reflexivity|].
      assert (DL : List.length d = 8%nat).
      { unfold kernel_get in G. destruct (negb (valid (width (arg c)))); [discriminate G|]. destruct (misaligned _ _); [discriminate G|]. injection G as <-. rewrite app_length, load_length, skipn_length. lia. }
      intros m'' H. unfold becomes. rewrite C. intros a. destruct (H a) as (H1 & H2). split; [|exact H2]. intros I i B. rewrite (H1 I). unfold octet_at. unfold within in I.
      assert (FL : List.length (firstn (Z.to_nat (width (arg c))) d) = Z.to_nat (width (arg c))) by (apply firstn_length_le; lia).
      rewrite clear_nth by (rewrite ?FL; lia). rewrite Z.land_spec, lnot8_bit by exact B. rewrite nth_firstn by lia. rewrite (V S1) by lia.
      destruct (Z.ltb_spec (Z.of_nat (Z.to_nat (a - (base + offset (arg c))))) (width (arg c))) as [Q|Q]; [|lia]. replace (base + offset (arg c) + Z.of_nat (Z.to_nat (a - (base + offset (arg c))))) with a by lia. reflexivity.
    + right. split; [|do 2 eexists; reflexivity]. apply FAIL; [reflexivity|]. apply NP. exact (get_none _ _ G).
  - right. split; [|do 2 eexists; reflexivity]. apply FAIL; [reflexivity|]. intros (_ & _ & Q & _). rewrite C in Q. cbn in Q. intuition discriminate.
Qed.

Definition remaining (t : thread) : list call :=
  match t with Idle cs => cs | Held c cs | Modify c _ cs | Leave c _ _ cs => c :: cs | Lost => [] end.
Definition inside (t : thread) : bool := match t with Idle _ => false | _ => true end.

Definition inv (m0 : memory) (calls : list (list call)) (s : system) : Prop :=
  (forall i, nth i calls [] = calls_of i (returns s) ++ match nth_error (threads s) i with Some t => remaining t | None => [] end) /\
  (forall i t, nth_error (threads s) i = Some t -> if inside t then holder s = Some i else holder s <> Some i) /\
  exists m, one_by_one base length (returns s) m0 m /\
    match holder s with None => mem s = m | Some i => exists t, nth_error (threads s) i = Some t /\ going t m (mem s) end.

Lemma calls_snoc i l j c rc user : calls_of i (l ++ [(j, c, rc, user)]) = calls_of i l ++ (if Nat.eqb j i then [c] else []).
Proof. unfold calls_of. rewrite filter_app, map_app. cbn [filter]. destruct (Nat.eqb j i); reflexivity. Qed.

Lemma inv_start m0 calls : inv m0 calls (start m0 calls).
Proof.
  unfold inv, start. cbn [returns threads holder mem]. split; [|split].
  - intros i. rewrite nth_error_map. cbn [calls_of filter map app]. destruct (nth_error calls i) as [cs|] eqn:E; cbn [option_map remaining].
    + exact (nth_error_nth _ _ _ E).
    + apply nth_error_None in E. apply nth_overflow, E.
  - intros i t. rewrite nth_error_map. destruct (nth_error calls i); cbn [option_map]; [|discriminate]. intros E. injection E as <-. cbn. discriminate.
  - exists m0. split; [constructor|reflexivity].
Qed.

Lemma inv_step m0 calls s i b : Forall (fun cs => Forall (fun c => sized c /\ dir_write (cmd c) = true) cs) calls ->
  inv m0 calls s -> inv m0 calls (step base length s i b).
Proof.
  intros F I. pose proof I as (A & H & m & O & M). unfold step. destruct (nth_error (threads s) i) as [t|] eqn:T; [|exact I].
  assert (SZ : forall c, In c (remaining t) -> sized c /\ dir_write (cmd c) = true).
  { intros c R. specialize (A i). rewrite T in A. assert (IC : In c (nth i calls [])) by (rewrite A; apply in_or_app; right; exact R).
    rewrite Forall_forall in F. destruct (nth_in_or_default i calls []) as [N|N]; [|rewrite N in IC; contradiction]. specialize (F _ N). rewrite Forall_forall in F. exact (F _ IC). }
  assert (HI := H i t T).
  (* replacing the state of this thread *)
  assert (RA : forall t' l', calls_of i (returns s) ++ remaining t = calls_of i l' ++ remaining t' -> (forall j, j <> i -> calls_of j l' = calls_of j (returns s)) ->
    forall j, nth j calls [] = calls_of j l' ++ match nth_error (replace i t' (threads s)) j with Some t => remaining t | None => [] end).
  { intros t' l' E1 E2 j. rewrite nth_replace. destruct (Nat.eqb_spec i j) as [<-|N]; [rewrite T, <- E1, A, T; reflexivity|]. rewrite E2 by congruence. apply A. }
  assert (OTHER : forall j u, nth_error (threads s) j = Some u -> j <> i -> holder s = Some i -> inside u = false).
  { intros j u J N E. specialize (H j u J). destruct (inside u); [congruence|reflexivity]. }
  destruct t as [[|c cs]|c cs|c new cs|c rc user cs|]; try exact I; cbn [inside remaining] in *.
  - destruct b.
    + split; [|split]; cbn [returns threads holder mem].
      * apply RA; [rewrite calls_snoc, Nat.eqb_refl; cbn [remaining]; rewrite <- app_assoc; reflexivity|]. intros j N. rewrite calls_snoc. destruct (Nat.eqb_spec i j); [congruence|]. apply app_nil_r.
      * intros j u. rewrite nth_replace. destruct (Nat.eqb_spec i j) as [<-|N]; [rewrite T; intros E; injection E as <-; exact HI|]. apply H.
      * exists m. split; [apply (one_more _ _ _ _ _ _ _ _ m); [exact O|]; right; unfold EINTR; split; [lia|]; split; [left; reflexivity|]; split; reflexivity|].
        destruct (holder s) as [j|] eqn:HS; [|exact M]. destruct M as (u & U & G). exists u. split; [|exact G]. rewrite nth_replace. destruct (Nat.eqb_spec i j); [congruence|]. exact U.
    + destruct (holder s) as [h|] eqn:HS; [exact I|]. split; [|split]; cbn [returns threads holder mem].
      * apply RA; reflexivity.
      * intros j u. rewrite nth_replace. destruct (Nat.eqb_spec i j) as [<-|N]; [rewrite T; intros E; injection E as <-; reflexivity|]. intros U. specialize (H j u U). destruct (inside u); congruence.
      * exists m. split; [exact O|]. eexists. rewrite nth_replace, Nat.eqb_refl, T. split; [reflexivity|]. exact M.
  - rewrite HI in M. destruct M as (u & U & G). rewrite T in U. injection U as <-. cbn [going] in G.
    destruct (SZ c (or_introl eq_refl)) as (S1 & S2). pose proof (perform_going (mem s) c cs S1 S2) as PG. destruct (perform base length (mem s) c cs) as (t' & m').
    assert (Q : going t' (mem s) m' /\ remaining t' = c :: cs /\ inside t' = true) by (destruct PG as [(Q & new & ->)|(Q & rc & user & ->)]; split; try exact Q; split; reflexivity).
    destruct Q as (Q & QR & QI). split; [|split]; cbn [returns threads holder mem].
    + apply RA; [rewrite QR; reflexivity|reflexivity].
    + intros j u. rewrite nth_replace. destruct (Nat.eqb_spec i j) as [<-|N]; [rewrite T; intros E; injection E as <-; rewrite QI; exact HI|]. apply H.
    + exists m. split; [exact O|]. rewrite HI. exists t'. rewrite nth_replace, Nat.eqb_refl, T. split; [reflexivity|]. rewrite <- G. exact Q.
  - rewrite HI in M. destruct M as (u & U & G). rewrite T in U. injection U as <-. cbn [going] in G. destruct G as (E & W & L & GV & G). cbv zeta.
    assert (NX : forall m' t', remaining t' = c :: cs -> inside t' = true -> going t' m m' -> inv m0 calls (mksystem (holder s) m' (replace i t' (threads s)) (returns s))).
    { intros m' t' QR QI Q. split; [|split]; cbn [returns threads holder mem].
      - apply RA; [rewrite QR; reflexivity|reflexivity].
      - intros j u. rewrite nth_replace. destruct (Nat.eqb_spec i j) as [<-|N]; [rewrite T; intros E'; injection E' as <-; rewrite QI; exact HI|]. apply H.
      - exists m. split; [exact O|]. rewrite HI. exists t'. rewrite nth_replace, Nat.eqb_refl, T. split; [reflexivity|exact Q]. }
    destruct (kernel_put (mem s) (base + offset (arg c)) (width (arg c)) new) as [m'|] eqn:K.
    + destruct (put_some _ _ _ _ K (proj1 (proj1 W)) L) as (P & V). rewrite E in V. apply NX; [reflexivity|reflexivity|]. left. split; [reflexivity|]. split; [exact W|]. split; [apply G, V|exact GV].
    + exfalso. exact (put_none _ _ _ K (proj1 W)).
  - rewrite HI in M. destruct M as (u & U & G). rewrite T in U. injection U as <-. cbn [going] in G. split; [|split]; cbn [returns threads holder mem].
    + apply RA; [rewrite calls_snoc, Nat.eqb_refl; cbn [remaining]; rewrite <- app_assoc; reflexivity|]. intros j N. rewrite calls_snoc. destruct (Nat.eqb_spec i j); [congruence|]. apply app_nil_r.
    + intros j u. rewrite nth_replace. destruct (Nat.eqb_spec i j) as [<-|N]; [rewrite T; intros E; injection E as <-; cbn; discriminate|]. intros U. rewrite (OTHER j u U ltac:(congruence) HI). discriminate.
    + exists (mem s). split; [|reflexivity]. apply (one_more _ _ _ _ _ _ _ _ m); assumption.
Qed.

Lemma inv_run schedule : forall m0 calls s, Forall (fun cs => Forall (fun c => sized c /\ dir_write (cmd c) = true) cs) calls ->
  inv m0 calls s -> inv m0 calls (run base length s schedule).
Proof.
  induction schedule as [|(i & b) schedule IH]; intros m0 calls s F I; cbn [run]; [exact I|]. apply IH; [exact F|]. apply inv_step; assumption.
Qed.
End Inv.
