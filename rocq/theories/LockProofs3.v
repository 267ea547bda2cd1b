From Coq Require Import ZArith List Bool Lia Arith.
From Verif Require Import CInt CUtil DiskModel LockModel LockSpec LockProofs LockProofs2.
Import ListNotations.
Local Open Scope Z_scope.

(** * Decimal numbers *)

Lemma show_digits_ok : forall fuel n acc, (0 < fuel)%nat -> 0 <= n < 10 ^ Z.of_nat fuel ->
  exists ds, show_digits fuel n acc = ds ++ acc /\ (exists d ds', ds = d :: ds' /\ is_digit d = true) /\ forall a rest, scan_digits (ds ++ rest) a = scan_digits rest (a * 10 ^ Z.of_nat (length ds) + n).
Proof.
  assert (DG : forall k, 0 <= k < 10 -> is_digit (48 + k) = true) by (intros k K; unfold is_digit; apply andb_true_iff; split; apply Z.leb_le; lia).
  induction fuel as [|fuel IH]; intros n acc F B; [lia|]. cbn [show_digits]. destruct (Z.ltb_spec n 10).
  - exists [48 + n]. split; [reflexivity|]. split; [eexists _, _; split; [reflexivity|apply DG; lia]|]. intros a rest. cbn [app scan_digits length]. rewrite DG by lia. f_equal. change (10 ^ Z.of_nat 1) with 10. lia.
  - assert (NF : fuel <> O) by (intros ->; change (10 ^ Z.of_nat 1) with 10 in B; lia). pose proof (Z.div_mod n 10) as DM. pose proof (Z.mod_pos_bound n 10) as MB.
    destruct (IH (n / 10) ((48 + n mod 10) :: acc)) as (ds & E & (d & ds' & D1 & D2) & SC); [lia| |].
    { rewrite Nat2Z.inj_succ, Z.pow_succ_r in B by lia. split; [apply Z.div_pos; lia|]. apply Z.div_lt_upper_bound; lia. }
    exists (ds ++ [48 + n mod 10]). split; [rewrite E, <- app_assoc; reflexivity|]. split; [exists d, (ds' ++ [48 + n mod 10]); rewrite D1; auto|].
    intros a rest. rewrite <- app_assoc, SC. cbn [app scan_digits]. rewrite DG by lia. f_equal. rewrite app_length. cbn [length]. rewrite Nat2Z.inj_add, Z.pow_add_r by lia. change (10 ^ Z.of_nat 1) with 10. lia.
Qed.
Lemma scan_show z : 0 <= z < 10000000000 -> scan (show z ++ [10]) = Some z.
Proof.
  intros Z. unfold show. destruct (Z.ltb_spec z 0); [lia|]. destruct (show_digits_ok 10 z [] ltac:(lia) ltac:(cbn; lia)) as (ds & E & (d & ds' & D1 & D2) & SC). rewrite E, app_nil_r, D1. cbn [app scan].
  assert (DR : 48 <= d <= 57) by (unfold is_digit in D2; apply andb_true_iff in D2 as (Q1 & Q2); apply Z.leb_le in Q1, Q2; lia).
  assert (SP : is_space d = false) by (unfold is_space; apply orb_false_iff; split; [apply Z.eqb_neq; lia|apply andb_false_iff; right; apply Z.leb_gt; lia]). rewrite SP.
  destruct (Z.eqb_spec d 45); [lia|]. destruct (Z.eqb_spec d 43); [lia|]. cbn [scan_unsigned]. rewrite D2. f_equal. change (d :: ds' ++ [10]) with ((d :: ds') ++ [10]). rewrite <- D1, SC. cbn [scan_digits]. change (is_digit 10) with false. cbn [app]. lia.
Qed.

(** * Those that succeeded *)

Definition good (w : world) (t : nat) (c : api) : Prop :=
  exists h1 h2, history w = h1 ++ (t, Called c) :: h2 /\
    (find (fun e => Nat.eqb (fst e) t) h2 = Some (t, Returned c 0) \/ quiet t h2 /\ ((exists n, threads w t = Cleanup c n 0) \/ threads w t = Leaving c 0 \/ threads w t = Dead)).
Lemma good_succeeded w t c : good w t c -> succeeded (history w) t c.
Proof. intros (h1 & h2 & E & G). exists h1, h2. split; [exact E|]. destruct G as [->|(Q & _)]; [reflexivity|]. unfold quiet in Q. rewrite Q. exact I. Qed.
Lemma good_step pid w t a w' u c : stepr pid w t a w' -> good w u c -> good w' u c.
Proof.
  intros S (h1 & h2 & E & G). destruct G as [G|(Q & G)].
  - destruct (step_history pid w t a w' S) as [EH|(e & EH)]; [exists h1, h2; rewrite EH; auto|]. exists h1, (h2 ++ [(t, e)]). split; [rewrite EH, E, <- app_assoc; reflexivity|]. left. rewrite find_app_, G. reflexivity.
  - destruct (Nat.eq_dec u t) as [->|N].
    + destruct S; try (destruct G as [(m & G)|[G|G]]; congruence); try (destruct G as [(m & G)|[G|G]]; rewrite H in G; discriminate G).
      * exists h1, h2. split; [exact E|]. right. split; [exact Q|]. right. right. apply goes_same.
      * destruct G as [(m & G)|[G|G]]; rewrite H in G; try discriminate G. injection G as -> -> ->. exists h1, h2. split; [exact E|]. right. split; [exact Q|]. right. left. apply goes_same.
      * destruct G as [(m & G)|[G|G]]; rewrite H in G; try discriminate G. injection G as -> -> ->. exists h1, h2. split; [exact E|]. right. split; [exact Q|]. right. left. apply goes_same.
      * destruct G as [(m & G)|[G|G]]; rewrite H in G; try discriminate G. injection G as -> ->. exists h1, (h2 ++ [(t, Returned c 0)]). split; [cbn; rewrite E, <- app_assoc; reflexivity|]. left. unfold quiet in Q. rewrite find_app_, Q. cbn. rewrite Nat.eqb_refl. reflexivity.
    + rewrite <- (step_other pid w t a w' u S N) in G. destruct (step_history pid w t a w' S) as [EH|(e & EH)]; [exists h1, h2; rewrite EH; auto|]. exists h1, (h2 ++ [(t, e)]). split; [rewrite EH, E, <- app_assoc; reflexivity|]. right. split; [apply quiet_app; auto|exact G].
Qed.
Lemma good_now w t c d p : hinv w -> in_call (threads w t) = Some c -> (exists n, p = Cleanup c n 0) \/ p = Leaving c 0 -> good (goes w t d p) t c.
Proof. intros HV C P. destruct (HV t c C) as (h1 & h2 & E & Q). exists h1, h2. split; [exact E|]. right. split; [exact Q|]. rewrite goes_same. tauto. Qed.

Definition full (pid : nat -> Z) (t : nat) : list Z := show (pid t) ++ [10].
Definition stores (c : api) : Prop := c = LOCK \/ c = POSTLOCK \/ c = FILE.
Definition cont (pid : nat -> Z) (w : world) (l : list Z) : Prop :=
  l = [] /\ (exists t, good w t PRELOCK) \/ exists t c, good w t c /\ stores c /\ l = full pid t.
Definition chk (pid : nat -> Z) (w : world) (rc : Z) : Prop :=
  rc = -1 \/ rc = 0 /\ (exists t, good w t PRELOCK) \/ exists t c, good w t c /\ stores c /\ rc = pid t.
Lemma cont_step pid w t a w' l : stepr pid w t a w' -> cont pid w l -> cont pid w' l.
Proof. intros S [(E & u & G)|(u & c & G & K)]; [left; split; [exact E|exists u]|right; exists u, c; split; [|exact K]]; eapply good_step; eassumption. Qed.
Lemma chk_step pid w t a w' rc : stepr pid w t a w' -> chk pid w rc -> chk pid w' rc.
Proof. intros S [E|[(E & u & G)|(u & c & G & K)]]; [left; exact E|right; left; split; [exact E|exists u]|right; right; exists u, c; split; [|exact K]]; eapply good_step; eassumption. Qed.

(** * Names and files *)

Definition sole (d : disk) (n i : Z) : Prop := entry d n = Some i /\ forall m, entry d m = Some i -> m = n.
Definition writes (p : pc) (i : Z) : Prop := match p with Opened _ _ j | Flushing _ _ j _ => j = i | _ => False end.
Definition at_pc (pid : nat -> Z) (w : world) (t : nat) (p : pc) : Prop :=
  let d := files w in
  match p with
  | Opened c n i => sole d n i /\ data d i = []
  | Flushing c n i todo => sole d n i /\ data d i ++ todo = full pid t
  | Renaming c n => exists i, sole d n i /\ data d i = full pid t
  | Reading i got => i < spare d /\ cont pid w (data d i) /\ got = firstn (length got) (data d i) /\ forall u, ~ writes (threads w u) i
  | Leaving CHECK rc => chk pid w rc
  | _ => True
  end.
Definition jinv (pid : nat -> Z) (w : world) : Prop :=
  (forall n i, entry (files w) n = Some i -> i < spare (files w)) /\
  (forall t u n, uses (threads w t) n -> uses (threads w u) n -> t = u) /\
  (forall i, entry (files w) LOCKFILE = Some i -> cont pid w (data (files w) i)) /\
  (forall t, at_pc pid w t (threads w t)) /\
  (forall t rc, In (t, Returned CHECK rc) (history w) -> chk pid w rc).

Lemma stores_temp c : makes_temp c = true -> stores c. Proof. destruct c; try discriminate; unfold stores; auto. Qed.
(** A writer's file is not the lock file. *)
Lemma writer_sole pid w t i : jinv pid w -> writes (threads w t) i -> exists n, uses (threads w t) n /\ sole (files w) n i.
Proof. intros (_ & _ & _ & P & _) W. specialize (P t). destruct (threads w t); try contradiction; cbn [writes] in W; subst inode; exists path; split; try reflexivity; apply P. Qed.

(** Steps that change only the program counter of [t] (and the history). *)
Lemma jinv_pc pid w t a w' : jinv pid w -> stepr pid w t a w' -> files w' = files w ->
  (forall n, uses (threads w' t) n -> uses (threads w t) n) -> (forall i, writes (threads w' t) i -> writes (threads w t) i) -> at_pc pid w' t (threads w' t) ->
  (forall u rc, In (u, Returned CHECK rc) (history w') -> In (u, Returned CHECK rc) (history w) \/ chk pid w rc) -> jinv pid w'.
Proof.
  intros (J1 & J2 & J3 & J4 & J5) S F U W A H. pose proof (step_other pid w t a w') as SO. unfold jinv. rewrite F.
  assert (UU : forall u n, uses (threads w' u) n -> uses (threads w u) n) by (intros u n; destruct (Nat.eq_dec u t) as [->|N]; [apply U|rewrite (SO u S N); auto]).
  assert (WW : forall u i, writes (threads w' u) i -> writes (threads w u) i) by (intros u i; destruct (Nat.eq_dec u t) as [->|N]; [apply W|rewrite (SO u S N); auto]).
  split; [exact J1|]. split; [intros x y n X Y; apply (J2 x y n); apply UU; assumption|]. split; [intros i E; eapply cont_step; [exact S|apply J3, E]|]. split.
  - intros u. destruct (Nat.eq_dec u t) as [->|N]; [exact A|]. specialize (J4 u). rewrite (SO u S N). destruct (threads w u) as [|c|c n i|c n i todo|c n|c n rc|c rc|i got| |]; cbn [at_pc] in *; rewrite ?F; try exact J4.
    + destruct c; try exact I. eapply chk_step; eassumption.
    + destruct J4 as (K1 & K2 & K3 & K4). split; [exact K1|]. split; [eapply cont_step; eassumption|]. split; [exact K3|]. intros v WV. exact (K4 v (WW v i WV)).
  - intros u rc I. apply H in I as [I|I]; [apply J5 in I|]; eapply chk_step; eassumption.
Qed.
Ltac same_history := cbn; intros; left; assumption.

Lemma more_read (got dd : list Z) k : got = firstn (length got) dd -> got ++ firstn k (skipn (length got) dd) = firstn (length (got ++ firstn k (skipn (length got) dd))) dd.
Proof.
  intros E. assert (D : dd = (got ++ firstn k (skipn (length got) dd)) ++ skipn k (skipn (length got) dd)) by (rewrite <- app_assoc, firstn_skipn; rewrite E at 1; rewrite firstn_skipn; reflexivity).
  set (x := got ++ firstn k (skipn (length got) dd)) in *. set (y := skipn k (skipn (length got) dd)) in *. clearbody x y. rewrite D, firstn_app, firstn_all, Nat.sub_diag. cbn. rewrite app_nil_r. reflexivity.
Qed.

Lemma jinv_step pid w t a w' : (forall u, 0 < pid u < 2147483648) -> hinv w -> ninv w -> jinv pid w -> lucky_act w a -> stepr pid w t a w' -> jinv pid w'.
Proof.
  intros PID HV NV JV L S. pose proof JV as (J1 & J2 & J3 & J4 & J5). pose proof S as S'. pose proof (J4 t) as JT.
  destruct S; try (match goal with H : threads w t = _ |- _ => rewrite H in JT end; cbn [at_pc] in JT).
  - apply (jinv_pc pid w t _ _ JV S'); rewrite ?goes_same; cbn [uses writes at_pc]; try tauto; try reflexivity; same_history.
  - apply (jinv_pc pid w t _ _ JV S'); rewrite ?notes_threads, ?goes_same; cbn [uses writes at_pc]; try tauto; try reflexivity. cbn. intros u rc I. apply in_app_iff in I as [I|[I|[]]]; [auto|discriminate].
  - (* a new file *)
    unfold d_create in H2. destruct (entry (files w) n) eqn:EN; [discriminate|]. injection H2 as <- <-. cbn [lucky_act] in L.
    set (d := files w) in *. set (i := spare d) in *.
    assert (DT : forall j, j < i -> data (Disk (fun m => if m =? n then Some i else entry d m) (fun i0 => if i0 =? i then [] else data d i0) (i + 1)) j = data d j) by (intros j B; cbn [data]; destruct (Z.eqb_spec j i); [lia|reflexivity]).
    assert (SL : forall m j, m <> n -> sole d m j -> sole (Disk (fun m => if m =? n then Some i else entry d m) (fun i0 => if i0 =? i then [] else data d i0) (i + 1)) m j /\ j < i).
    { intros m j NE (S1 & S2). pose proof (J1 m j S1) as B. split; [|exact B]. split; cbn [entry]; [rewrite (proj2 (Z.eqb_neq m n) NE); exact S1|]. intros k. destruct (Z.eqb_spec k n); [intros EQ; injection EQ as EQ; unfold i in EQ; lia|apply S2]. }
    unfold jinv. cbn [files goes]. split.
    { intros m j. cbn [entry spare]. destruct (Z.eqb_spec m n); [intros EQ; injection EQ as <-; unfold i; lia|intros EQ; apply J1 in EQ; unfold i; lia]. }
    split.
    { intros x y m X Y. destruct (Nat.eq_dec x t) as [->|NX], (Nat.eq_dec y t) as [->|NY]; [reflexivity|rewrite goes_same in X; rewrite (goes_other w t _ _ y NY) in Y; cbn [uses] in X; subst m; destruct (L y Y)|rewrite goes_same in Y; rewrite (goes_other w t _ _ x NX) in X; cbn [uses] in Y; subst m; destruct (L x X)|rewrite (goes_other w t _ _ x NX) in X; rewrite (goes_other w t _ _ y NY) in Y; eapply J2; eassumption]. }
    split.
    { intros j. cbn [entry]. rewrite (proj2 (Z.eqb_neq LOCKFILE n)) by congruence. intros E0. rewrite DT by (apply (J1 LOCKFILE j E0)). eapply cont_step; [exact S'|apply J3, E0]. }
    split; [|intros u rc I; eapply chk_step; [exact S'|apply (J5 u rc), I]].
    intros u. destruct (Nat.eq_dec u t) as [->|N].
    + rewrite goes_same. cbn [at_pc files goes]. split; [split|].
      * cbn [entry]. rewrite Z.eqb_refl. reflexivity.
      * intros m. cbn [entry]. destruct (Z.eqb_spec m n); [auto|]. intros E. apply J1 in E. unfold i in E. lia.
      * cbn [data]. rewrite Z.eqb_refl. reflexivity.
    + specialize (J4 u). rewrite (goes_other w t _ _ u N). destruct (threads w u) as [|k|k m j|k m j todo|k m|k m rc|k rc|j got| |] eqn:PU; cbn [at_pc] in *; cbn [files goes]; try exact I.
      * assert (NE : m <> n) by (intros ->; apply (L u); rewrite PU; reflexivity). destruct J4 as (K1 & K2). destruct (SL m j NE K1) as (K3 & K4). split; [exact K3|rewrite DT by exact K4; exact K2].
      * assert (NE : m <> n) by (intros ->; apply (L u); rewrite PU; reflexivity). destruct J4 as (K1 & K2). destruct (SL m j NE K1) as (K3 & K4). split; [exact K3|rewrite DT by exact K4; exact K2].
      * assert (NE : m <> n) by (intros ->; apply (L u); rewrite PU; reflexivity). destruct J4 as (j & K1 & K2). destruct (SL m j NE K1) as (K3 & K4). exists j. split; [exact K3|rewrite DT by exact K4; exact K2].
      * destruct k; try exact I. eapply chk_step; eassumption.
      * destruct J4 as (K1 & K2 & K3 & K4). fold d i in K1. rewrite DT by exact K1. split; [cbn [spare]; lia|]. split; [eapply cont_step; eassumption|]. split; [exact K3|]. intros v W. destruct (Nat.eq_dec v t) as [->|NV2]; [rewrite goes_same in W; cbn [writes] in W; unfold i in W, K1; lia|]. rewrite (goes_other w t _ _ v NV2) in W. exact (K4 v W).
  - (* no temporary file *)
    cbn [lucky_act] in L. destruct L as (L & _).
    unfold jinv. cbn [files goes]. split; [exact J1|]. split.
    { intros x y m X Y. destruct (Nat.eq_dec x t) as [->|NX], (Nat.eq_dec y t) as [->|NY]; [reflexivity|rewrite goes_same in X; rewrite (goes_other w t _ _ y NY) in Y; cbn [uses] in X; subst m; destruct (L y Y)|rewrite goes_same in Y; rewrite (goes_other w t _ _ x NX) in X; cbn [uses] in Y; subst m; destruct (L x X)|rewrite (goes_other w t _ _ x NX) in X; rewrite (goes_other w t _ _ y NY) in Y; eapply J2; eassumption]. }
    split; [intros j E0; eapply cont_step; [exact S'|apply J3, E0]|]. split; [|intros u rc I; eapply chk_step; [exact S'|apply (J5 u rc), I]].
    intros u. destruct (Nat.eq_dec u t) as [->|N]; [rewrite goes_same; exact I|]. specialize (J4 u). rewrite (goes_other w t _ _ u N). destruct (threads w u) as [|k|k m j|k m j todo|k m|k m rc|k rc|j got| |] eqn:PU; cbn [at_pc] in *; cbn [files goes]; try exact J4.
    + destruct k; try exact I. eapply chk_step; eassumption.
    + destruct J4 as (K1 & K2 & K3 & K4). split; [exact K1|]. split; [eapply cont_step; eassumption|]. split; [exact K3|]. intros v W. destruct (Nat.eq_dec v t) as [->|NV2]; [rewrite goes_same in W; exact W|]. rewrite (goes_other w t _ _ v NV2) in W. exact (K4 v W).
  - apply (jinv_pc pid w t _ _ JV S'); rewrite ?goes_same, ?H; cbn [uses writes at_pc]; try tauto; try reflexivity; try same_history. destruct JT as (K1 & K2). split; [exact K1|]. cbn [files goes]. rewrite K2. reflexivity.
  - apply (jinv_pc pid w t _ _ JV S'); rewrite ?goes_same, ?H; cbn [uses writes at_pc]; try tauto; try reflexivity; same_history.
  - (* some octets are written *)
    destruct JT as (K1 & K2). destruct (NV t n) as (N0 & _); [rewrite H; reflexivity|].
    assert (DT : forall j, j <> i -> data (d_append (files w) i (firstn k todo)) j = data (files w) j) by (intros j NE; cbn; destruct (Z.eqb_spec j i); [contradiction|reflexivity]).
    assert (OTHER : forall u m j, u <> t -> uses (threads w u) m -> sole (files w) m j -> j <> i).
    { intros u m j N U (S1 & S2) ->. apply N. apply (J2 u t n); [|rewrite H; reflexivity]. rewrite (S2 n (proj1 K1)). exact U. }
    unfold jinv. cbn [files goes]. split; [exact J1|]. split.
    { intros x y m X Y. assert (UU : forall v, uses (threads (goes w t (d_append (files w) i (firstn k todo)) (Flushing c n i (skipn k todo))) v) m -> uses (threads w v) m) by (intros v; destruct (Nat.eq_dec v t) as [->|NE]; [rewrite goes_same, H; auto|rewrite (goes_other w t _ _ v NE); auto]). apply (J2 x y m); apply UU; assumption. }
    split.
    { intros j E0. cbn [entry d_append] in E0. rewrite DT; [eapply cont_step; [exact S'|apply J3, E0]|]. intros ->. apply N0. symmetry. apply K1, E0. }
    split; [|intros u rc I; eapply chk_step; [exact S'|apply (J5 u rc), I]].
    intros u. destruct (Nat.eq_dec u t) as [->|N].
    + rewrite goes_same. cbn [at_pc files goes]. split; [exact K1|]. cbn [data d_append]. rewrite Z.eqb_refl, <- app_assoc, firstn_skipn. exact K2.
    + specialize (J4 u). rewrite (goes_other w t _ _ u N). destruct (threads w u) as [|c'|c' m j|c' m j todo'|c' m|c' m rc|c' rc|j got| |] eqn:PU; cbn [at_pc] in *; cbn [files goes]; try exact J4.
      * destruct J4 as (Q1 & Q2). split; [exact Q1|]. rewrite DT; [exact Q2|]. apply (OTHER u m j N); [rewrite PU; reflexivity|exact Q1].
      * destruct J4 as (Q1 & Q2). split; [exact Q1|]. rewrite DT; [exact Q2|]. apply (OTHER u m j N); [rewrite PU; reflexivity|exact Q1].
      * destruct J4 as (j & Q1 & Q2). exists j. split; [exact Q1|]. rewrite DT; [exact Q2|]. apply (OTHER u m j N); [rewrite PU; reflexivity|exact Q1].
      * destruct c'; try exact I. eapply chk_step; eassumption.
      * destruct J4 as (Q1 & Q2 & Q3 & Q4). assert (NE : j <> i) by (intros ->; apply (Q4 t); rewrite H; reflexivity). rewrite DT by exact NE. split; [exact Q1|]. split; [eapply cont_step; eassumption|]. split; [exact Q3|].
        intros v W. destruct (Nat.eq_dec v t) as [->|NV2]; [rewrite goes_same in W; cbn [writes] in W; congruence|]. rewrite (goes_other w t _ _ v NV2) in W. exact (Q4 v W).
  - apply (jinv_pc pid w t _ _ JV S'); rewrite ?goes_same, ?H; cbn [uses writes at_pc]; try tauto; try reflexivity; try same_history. destruct JT as (K1 & K2). exists i. split; [exact K1|]. rewrite app_nil_r in K2. exact K2.
  - apply (jinv_pc pid w t _ _ JV S'); rewrite ?goes_same, ?H; cbn [uses writes at_pc]; try tauto; try reflexivity; same_history.
  - (* the renaming *)
    destruct JT as (i & K1 & K2). destruct (NV t n) as (N0 & c' & C1 & C2); [rewrite H; reflexivity|]. rewrite H in C1. injection C1 as <-.
    destruct (installs_some _ _ _ _ H0 N0) as (i' & E1 & E2 & E3 & E4 & E5 & E6). assert (EI : i' = i) by (destruct K1 as (K1 & _); congruence). subst i'.
    assert (G : cont pid (goes w t d' (Cleanup c n 0)) (data (files w) i)).
    { right. exists t, c. split; [apply good_now; [exact HV|rewrite H; reflexivity|left; eauto]|]. split; [apply stores_temp, C2|exact K2]. }
    assert (OTHER : forall u m j, u <> t -> uses (threads w u) m -> sole (files w) m j -> sole d' m j).
    { intros u m j N U (S1 & S2). assert (NM : m <> n) by (intros ->; apply N, (J2 u t n); [exact U|rewrite H; reflexivity]). assert (M0 : m <> LOCKFILE) by (apply (NV u m U)).
      assert (NJ : j <> i) by (intros ->; apply NM; symmetry; apply S2, K1). assert (J0 : entry (files w) LOCKFILE <> Some j) by (intros E; apply M0; symmetry; apply S2, E).
      split; [rewrite E3 by auto; exact S1|]. intros q. destruct (Z.eq_dec q LOCKFILE) as [->|Q0]; [rewrite E2; congruence|]. destruct (Z.eq_dec q n) as [->|QN]; [destruct E4 as [(E4 & _)|(_ & E4)]; rewrite E4; congruence|]. rewrite E3 by auto. apply S2. }
    unfold jinv. cbn [files goes]. rewrite E5, E6. split.
    { intros m j E. destruct (Z.eq_dec m LOCKFILE) as [->|M0]; [rewrite E2 in E; injection E as <-; apply (J1 n), K1|]. destruct (Z.eq_dec m n) as [->|MN]; [destruct E4 as [(E4 & _)|(_ & E4)]; rewrite E4 in E; [discriminate|apply (J1 LOCKFILE), E]|]. rewrite E3 in E by auto. apply (J1 m), E. }
    split.
    { intros x y m X Y. assert (UU : forall v, uses (threads (goes w t d' (Cleanup c n 0)) v) m -> uses (threads w v) m) by (intros v; destruct (Nat.eq_dec v t) as [->|NE]; [rewrite goes_same, H; auto|rewrite (goes_other w t _ _ v NE); auto]). apply (J2 x y m); apply UU; assumption. }
    split; [intros j E0; rewrite E2 in E0; injection E0 as <-; exact G|]. split; [|intros u rc I; eapply chk_step; [exact S'|apply (J5 u rc), I]].
    intros u. destruct (Nat.eq_dec u t) as [->|N]; [rewrite goes_same; exact I|]. specialize (J4 u). rewrite (goes_other w t _ _ u N). destruct (threads w u) as [|k|k m j|k m j todo'|k m|k m rc|k rc|j got| |] eqn:PU; cbn [at_pc] in *; cbn [files goes]; rewrite ?E5, ?E6; try exact J4.
    + destruct J4 as (Q1 & Q2). split; [|exact Q2]. apply (OTHER u m j N); [rewrite PU; reflexivity|exact Q1].
    + destruct J4 as (Q1 & Q2). split; [|exact Q2]. apply (OTHER u m j N); [rewrite PU; reflexivity|exact Q1].
    + destruct J4 as (j & Q1 & Q2). exists j. split; [|exact Q2]. apply (OTHER u m j N); [rewrite PU; reflexivity|exact Q1].
    + destruct k; try exact I. eapply chk_step; eassumption.
    + destruct J4 as (Q1 & Q2 & Q3 & Q4). split; [exact Q1|]. split; [eapply cont_step; eassumption|]. split; [exact Q3|]. intros v W. destruct (Nat.eq_dec v t) as [->|NV2]; [rewrite goes_same in W; exact W|]. rewrite (goes_other w t _ _ v NV2) in W. exact (Q4 v W).
  - apply (jinv_pc pid w t _ _ JV S'); rewrite ?goes_same, ?H; cbn [uses writes at_pc]; try tauto; try reflexivity; same_history.
  - (* the temporary file is removed *)
    destruct (NV t n) as (N0 & c' & C1 & C2); [rewrite H; reflexivity|]. rewrite H in C1. injection C1 as <-.
    assert (ED : d' = set_entry (files w) n None) by (unfold d_unlink in H0; destruct (entry (files w) n); [injection H0 as <-; reflexivity|discriminate]).
    assert (EE : forall m j, entry d' m = Some j -> entry (files w) m = Some j) by (intros m j; rewrite ED; cbn; destruct (m =? n); [discriminate|auto]).
    assert (OTHER : forall u m j, u <> t -> uses (threads w u) m -> sole (files w) m j -> sole d' m j).
    { intros u m j N U (S1 & S2). assert (NM : m <> n) by (intros ->; apply N, (J2 u t n); [exact U|rewrite H; reflexivity]). split; [rewrite ED; cbn; rewrite (proj2 (Z.eqb_neq m n) NM); exact S1|]. intros q E. apply S2, EE, E. }
    assert (DD : data d' = data (files w) /\ spare d' = spare (files w)) by (rewrite ED; split; reflexivity). destruct DD as (DD1 & DD2).
    unfold jinv. cbn [files goes]. rewrite DD1, DD2. split; [intros m j E; apply (J1 m), EE, E|]. split.
    { intros x y m X Y. assert (UU : forall v, uses (threads (goes w t d' (Leaving c rc)) v) m -> uses (threads w v) m) by (intros v; destruct (Nat.eq_dec v t) as [->|NE]; [rewrite goes_same; intros []|rewrite (goes_other w t _ _ v NE); auto]). apply (J2 x y m); apply UU; assumption. }
    split; [intros j E0; eapply cont_step; [exact S'|apply J3, EE, E0]|]. split; [|intros u rc' I; eapply chk_step; [exact S'|apply (J5 u rc'), I]].
    intros u. destruct (Nat.eq_dec u t) as [->|N]; [rewrite goes_same; cbn [at_pc]; destruct c; try exact I; discriminate C2|]. specialize (J4 u). rewrite (goes_other w t _ _ u N). destruct (threads w u) as [|k|k m j|k m j todo'|k m|k m rc'|k rc'|j got| |] eqn:PU; cbn [at_pc] in *; cbn [files goes]; rewrite ?DD1, ?DD2; try exact J4.
    + destruct J4 as (Q1 & Q2). split; [|exact Q2]. apply (OTHER u m j N); [rewrite PU; reflexivity|exact Q1].
    + destruct J4 as (Q1 & Q2). split; [|exact Q2]. apply (OTHER u m j N); [rewrite PU; reflexivity|exact Q1].
    + destruct J4 as (j & Q1 & Q2). exists j. split; [|exact Q2]. apply (OTHER u m j N); [rewrite PU; reflexivity|exact Q1].
    + destruct k; try exact I. eapply chk_step; eassumption.
    + destruct J4 as (Q1 & Q2 & Q3 & Q4). split; [exact Q1|]. split; [eapply cont_step; eassumption|]. split; [exact Q3|]. intros v W. destruct (Nat.eq_dec v t) as [->|NV2]; [rewrite goes_same in W; exact W|]. rewrite (goes_other w t _ _ v NV2) in W. exact (Q4 v W).
  - destruct (NV t n) as (N0 & c' & C1 & C2); [rewrite H; reflexivity|]. rewrite H in C1. injection C1 as <-.
    apply (jinv_pc pid w t _ _ JV S'); rewrite ?goes_same, ?H; cbn [uses writes at_pc]; try tauto; try reflexivity; try same_history. destruct c; try exact I. discriminate C2.
  - (* prelock *)
    unfold d_create in H0. destruct (entry (files w) LOCKFILE) eqn:EN; [discriminate|]. injection H0 as <- <-. set (d := files w) in *. set (i := spare d) in *.
    assert (DT : forall j, j < i -> data (Disk (fun m => if m =? LOCKFILE then Some i else entry d m) (fun i0 => if i0 =? i then [] else data d i0) (i + 1)) j = data d j) by (intros j B; cbn [data]; destruct (Z.eqb_spec j i); [lia|reflexivity]).
    assert (SL : forall u m j, uses (threads w u) m -> sole d m j -> sole (Disk (fun m => if m =? LOCKFILE then Some i else entry d m) (fun i0 => if i0 =? i then [] else data d i0) (i + 1)) m j /\ j < i).
    { intros u m j U (S1 & S2). pose proof (J1 m j S1) as B. destruct (NV u m U) as (M0 & _). split; [|exact B]. split; cbn [entry]; [rewrite (proj2 (Z.eqb_neq m LOCKFILE) M0); exact S1|]. intros k. destruct (Z.eqb_spec k LOCKFILE); [intros EQ; injection EQ as EQ; unfold i in EQ; lia|apply S2]. }
    assert (G : cont pid (goes w t (Disk (fun m => if m =? LOCKFILE then Some i else entry d m) (fun i0 => if i0 =? i then [] else data d i0) (i + 1)) (Leaving PRELOCK 0)) []).
    { left. split; [reflexivity|]. exists t. apply good_now; [exact HV|rewrite H; reflexivity|right; reflexivity]. }
    unfold jinv. cbn [files goes]. split.
    { intros m j. cbn [entry spare]. destruct (Z.eqb_spec m LOCKFILE); [intros EQ; injection EQ as <-; unfold i; lia|intros EQ; apply J1 in EQ; unfold i; lia]. }
    split.
    { intros x y m X Y. assert (UU : forall v, uses (threads (goes w t (Disk (fun m => if m =? LOCKFILE then Some i else entry d m) (fun i0 => if i0 =? i then [] else data d i0) (i + 1)) (Leaving PRELOCK 0)) v) m -> uses (threads w v) m) by (intros v; destruct (Nat.eq_dec v t) as [->|NE]; [rewrite goes_same; intros []|rewrite (goes_other w t _ _ v NE); auto]). apply (J2 x y m); apply UU; assumption. }
    split.
    { intros j. cbn [entry]. rewrite Z.eqb_refl. intros EQ. injection EQ as <-. cbn [data]. rewrite Z.eqb_refl. exact G. }
    split; [|intros u rc I; eapply chk_step; [exact S'|apply (J5 u rc), I]].
    intros u. destruct (Nat.eq_dec u t) as [->|N]; [rewrite goes_same; exact I|]. specialize (J4 u). rewrite (goes_other w t _ _ u N). destruct (threads w u) as [|k|k m j|k m j todo|k m|k m rc|k rc|j got| |] eqn:PU; cbn [at_pc] in *; cbn [files goes]; try exact I.
    + destruct J4 as (K1 & K2). destruct (SL u m j) as (K3 & K4); [rewrite PU; reflexivity|exact K1|]. split; [exact K3|rewrite DT by exact K4; exact K2].
    + destruct J4 as (K1 & K2). destruct (SL u m j) as (K3 & K4); [rewrite PU; reflexivity|exact K1|]. split; [exact K3|rewrite DT by exact K4; exact K2].
    + destruct J4 as (j & K1 & K2). destruct (SL u m j) as (K3 & K4); [rewrite PU; reflexivity|exact K1|]. exists j. split; [exact K3|rewrite DT by exact K4; exact K2].
    + destruct k; try exact I. eapply chk_step; eassumption.
    + destruct J4 as (K1 & K2 & K3 & K4). fold d i in K1. rewrite DT by exact K1. split; [cbn [spare]; lia|]. split; [eapply cont_step; eassumption|]. split; [exact K3|]. intros v W. destruct (Nat.eq_dec v t) as [->|NV2]; [rewrite goes_same in W; exact W|]. rewrite (goes_other w t _ _ v NV2) in W. exact (K4 v W).
  - apply (jinv_pc pid w t _ _ JV S'); rewrite ?goes_same, ?H; cbn [uses writes at_pc]; try tauto; try reflexivity; try same_history. destruct c; try exact I. left. reflexivity.
  - (* unlock *)
    assert (ED : d' = set_entry (files w) LOCKFILE None) by (unfold d_unlink in H0; destruct (entry (files w) LOCKFILE); [injection H0 as <-; reflexivity|discriminate]).
    assert (EE : forall m j, entry d' m = Some j -> entry (files w) m = Some j) by (intros m j; rewrite ED; cbn [entry set_entry]; destruct (m =? LOCKFILE); [discriminate|auto]).
    assert (OTHER : forall u m j, uses (threads w u) m -> sole (files w) m j -> sole d' m j).
    { intros u m j U (S1 & S2). destruct (NV u m U) as (M0 & _). split; [rewrite ED; cbn [entry set_entry]; rewrite (proj2 (Z.eqb_neq m LOCKFILE) M0); exact S1|]. intros q E. apply S2, EE, E. }
    assert (DD : data d' = data (files w) /\ spare d' = spare (files w)) by (rewrite ED; split; reflexivity). destruct DD as (DD1 & DD2).
    unfold jinv. cbn [files goes]. rewrite DD1, DD2. split; [intros m j E; apply (J1 m), EE, E|]. split.
    { intros x y m X Y. assert (UU : forall v, uses (threads (goes w t d' (Leaving UNLOCK 0)) v) m -> uses (threads w v) m) by (intros v; destruct (Nat.eq_dec v t) as [->|NE]; [rewrite goes_same; intros []|rewrite (goes_other w t _ _ v NE); auto]). apply (J2 x y m); apply UU; assumption. }
    split; [intros j E0; eapply cont_step; [exact S'|apply J3, EE, E0]|]. split; [|intros u rc' I; eapply chk_step; [exact S'|apply (J5 u rc'), I]].
    intros u. destruct (Nat.eq_dec u t) as [->|N]; [rewrite goes_same; exact I|]. specialize (J4 u). rewrite (goes_other w t _ _ u N). destruct (threads w u) as [|k|k m j|k m j todo'|k m|k m rc'|k rc'|j got| |] eqn:PU; cbn [at_pc] in *; cbn [files goes]; rewrite ?DD1, ?DD2; try exact J4.
    + destruct J4 as (Q1 & Q2). split; [|exact Q2]. apply (OTHER u m j); [rewrite PU; reflexivity|exact Q1].
    + destruct J4 as (Q1 & Q2). split; [|exact Q2]. apply (OTHER u m j); [rewrite PU; reflexivity|exact Q1].
    + destruct J4 as (j & Q1 & Q2). exists j. split; [|exact Q2]. apply (OTHER u m j); [rewrite PU; reflexivity|exact Q1].
    + destruct k; try exact I. eapply chk_step; eassumption.
    + destruct J4 as (Q1 & Q2 & Q3 & Q4). split; [exact Q1|]. split; [eapply cont_step; eassumption|]. split; [exact Q3|]. intros v W. destruct (Nat.eq_dec v t) as [->|NV2]; [rewrite goes_same in W; exact W|]. rewrite (goes_other w t _ _ v NV2) in W. exact (Q4 v W).
  - apply (jinv_pc pid w t _ _ JV S'); rewrite ?goes_same, ?H; cbn [uses writes at_pc]; try tauto; try reflexivity; try same_history.
    cbn [files goes]. split; [apply (J1 LOCKFILE), H0|]. split; [eapply cont_step; [exact S'|apply J3, H0]|]. split; [reflexivity|]. intros u W.
    assert (W2 : writes (threads w u) i) by (destruct (Nat.eq_dec u t) as [->|N]; [rewrite goes_same in W; destruct W|rewrite (goes_other w t _ _ u N) in W; exact W]). destruct (writer_sole pid w u i JV W2) as (n & U & _ & SO). destruct (NV u n U) as (N0 & _). apply N0. symmetry. apply SO, H0.
  - destruct JT as (Q1 & Q2 & Q3 & Q4). apply (jinv_pc pid w t _ _ JV S'); rewrite ?goes_same, ?H; cbn [uses writes at_pc]; try tauto; try reflexivity; try same_history.
    cbn [files goes]. split; [exact Q1|]. split; [eapply cont_step; [exact S'|exact Q2]|]. split.
    + apply more_read, Q3.
    + intros u W. destruct (Nat.eq_dec u t) as [->|N]; [rewrite goes_same in W; exact W|rewrite (goes_other w t _ _ u N) in W; exact (Q4 u W)].
  - destruct JT as (Q1 & Q2 & Q3 & Q4). apply (jinv_pc pid w t _ _ JV S'); rewrite ?goes_same, ?H; cbn [uses writes at_pc]; try tauto; try reflexivity; try same_history.
    eapply chk_step; [exact S'|]. rewrite firstn_all2 in Q3 by exact H0. rewrite Q3. destruct Q2 as [(E & G)|(u & c & G & K & E)]; rewrite E.
    + right. left. split; [reflexivity|exact G].
    + right. right. exists u, c. split; [exact G|]. split; [exact K|]. unfold full. specialize (PID u). rewrite scan_show by lia. unfold s32. rewrite Z.mod_small by lia. lia.
  - apply (jinv_pc pid w t _ _ JV S'); rewrite ?notes_threads, ?goes_same; cbn [uses writes at_pc]; try tauto; try reflexivity. cbn. intros u rc' I. apply in_app_iff in I as [I|[I|[]]]; [auto|]. injection I as <- -> ->. right. exact JT.
Qed.
