From Coq Require Import ZArith List Bool Arith Lia Permutation.
From Verif Require Import CInt CUtil MemoryModel MemorySpec MemoryProofs ListModel ListSpec ListProofs ListProofs2 ListProofs3 ListProofs4 ListProofs5 ListProofs6 WellModel WellSpec WellProofs.
Import ListNotations.
Local Open Scope Z_scope.

Lemma objects_S start size n : objects start size (S n) = start :: objects (start + size) size n.
Proof.
  unfold objects. cbn [seq map]. f_equal; [lia|]. rewrite <- seq_shift, map_map. apply map_ext. intros i. lia.
Qed.
Lemma objects_in start size n p : In p (objects start size n) <-> exists i, (i < n)%nat /\ p = start + size * Z.of_nat i.
Proof. unfold objects. rewrite in_map_iff. split; [intros (i & <- & H); apply in_seq in H; exists i; split; [lia|reflexivity]|intros (i & H & ->); exists i; split; [reflexivity|apply in_seq; lia]]. Qed.
Lemma objects_length start size n : length (objects start size n) = n.
Proof. unfold objects. rewrite map_length, seq_length. reflexivity. Qed.
Lemma objects_nodup start size n : 0 < size -> NoDup (objects start size n).
Proof.
  intros S. revert start. induction n as [|n IH]; intros start; [constructor|]. rewrite objects_S. constructor; [|apply IH]. rewrite objects_in. intros (i & _ & E). nia.
Qed.

Lemma fill_ok fuel : forall n ii h control dt offset size l,
  represents h [WELL :: map (NODE WELL) (seq 0 ii); [USED WELL]] -> map (fun x => data (h x)) (map (NODE WELL) (seq 0 ii)) = l ->
  node_size * (2 + Z.of_nat ii + Z.of_nat n) <= extent control -> offset + size * Z.of_nat n <= extent dt -> 0 <= size -> (2 + ii + n <= fuel)%nat ->
  exists h', fill fuel n ii h control dt offset size = Some h' /\ winv h' (l ++ objects (address dt + offset) size n) [] /\ well_fini h' WELL = well_fini h WELL.
Proof.
  induction n as [|n IH]; intros ii h control dt offset size l R D LC LD SZ FU.
  - exists h. split; [reflexivity|]. split; [|reflexivity]. exists (map (NODE WELL) (seq 0 ii)), []. split; [exact R|]. split; [|reflexivity]. rewrite D. unfold objects. cbn. rewrite app_nil_r. reflexivity.
  - cbn [fill]. unfold fits. destruct (Z.leb_spec (node_size * (Z.of_nat (2 + ii) + 1)) (extent control)); [|unfold node_size in *; lia]. cbn [bind].
    destruct (Z.leb_spec (offset + size) (extent dt)); [|nia]. cbn [bind].
    set (x := NODE WELL ii). assert (NX : ~ In x (concat [WELL :: map (NODE WELL) (seq 0 ii); [USED WELL]])).
    { cbn. rewrite in_app_iff, in_map_iff. unfold x, NODE, USED, WELL. intros [C|[(i & C & Hi)|[C|[]]]]; [lia| |lia]. apply in_seq in Hi. lia. }
    pose proof (datainit_new h x (address dt + offset) _ R NX) as R1. set (h1 := datainit h x (address dt + offset)) in *.
    assert (R1' : represents h1 [WELL :: map (NODE WELL) (seq 0 ii); [x]; [USED WELL]]) by (apply swap2, R1).
    destruct (next_root _ _ _ _ R1') as (_ & P & _). unfold FREE. rewrite P.
    destruct (enq fuel h1 WELL _ x _ R1') as (h2 & E & R2 & K); [rewrite map_length, seq_length; lia|]. rewrite E. cbn [bind].
    assert (EQ : map (NODE WELL) (seq 0 ii) ++ [x] = map (NODE WELL) (seq 0 (S ii))) by (rewrite seq_S, map_app; reflexivity). rewrite EQ in R2.
    assert (DT : forall y, data (h2 y) = if (y =? x)%nat then address dt + offset else data (h y)).
    { intros y. rewrite (proj1 K). unfold h1. destruct (datainit_fields h x (address dt + offset) y) as (_ & _ & _ & DD). exact DD. }
    destruct (IH (S ii) h2 control dt (offset + size) size (l ++ [address dt + offset])) as (h' & E' & V & FI); [exact R2| |unfold node_size in *; lia|nia|exact SZ|lia|].
    + rewrite <- EQ. rewrite (map_app (fun y => data (h2 y))). cbn [map]. rewrite DT, Nat.eqb_refl. f_equal. rewrite <- D. apply map_ext_in. intros y Y. rewrite DT.
      destruct (Nat.eqb_spec y x) as [C|]; [|reflexivity]. exfalso. apply NX. rewrite <- C. cbn. rewrite in_app_iff. auto.
    + exists h'. split; [exact E'|]. split.
      * rewrite objects_S. rewrite <- app_assoc in V. cbn [app] in V. rewrite Z.add_assoc in V. exact V.
      * rewrite FI. unfold well_fini, FREE. rewrite !DT. assert (U : (USED WELL =? x)%nat = false) by (apply Nat.eqb_neq; unfold x, NODE, USED, WELL; lia).
        assert (W : (WELL =? x)%nat = false) by (apply Nat.eqb_neq; unfold x, NODE, USED, WELL; lia). rewrite U, W. reflexivity.
Qed.

Lemma get_block_ok memalign align size : posix memalign -> power_of_two align -> align <= 2 ^ 63 -> 0 <= size -> size + Z.max align 8 <= 2 ^ 64 ->
  exists bytes, size <= bytes /\
  match get_block memalign align size with
  | None => fst (memalign (Z.max align 8) bytes) <> 0
  | Some b => memalign (Z.max align 8) bytes = (0, address b) /\ extent b = bytes /\ address b <> 0 /\ (align | address b)
  end.
Proof.
  intros PX PW LE S0 S1. pose proof (align_pointer align PW LE) as AP. destruct (pow_max_8 align PW) as (PW8 & DIV & _).
  destruct (alignment_least size (Z.max align 8) S0 PW8 S1) as (M1 & M2 & M3). exists (alignment size (Z.max align 8)). split; [exact M2|].
  unfold get_block, aligned. rewrite AP. pose proof (PX (Z.max align 8) (alignment size (Z.max align 8))) as PP.
  destruct (memalign (Z.max align 8) (alignment size (Z.max align 8))) as (rc, p) eqn:EM. destruct PP as (PP & RC). rewrite Z.gtb_ltb.
  destruct (Z.ltb_spec 0 rc) as [G|G]; [cbn; lia|]. destruct (Z.ltb_spec rc 0) as [G2|G2]; [lia|]. assert (rc = 0) by lia. subst rc. destruct (PP eq_refl) as (_ & _ & N & DV).
  destruct (Z.eqb_spec p 0) as [|_]; [contradiction|]. destruct (Z.eqb_spec p 0) as [|_]; [contradiction|]. cbn [address extent]. split; [reflexivity|]. split; [reflexivity|]. split; [exact N|].
  eapply Z.divide_trans; [exact DIV|exact DV].
Qed.

Lemma well_init_ok page line malloc1 malloc2 fuel h size count align pagesize linesize P A p size' :
  P = (if pagesize =? 0 then page else pagesize) -> A = (if align =? 0 then if linesize =? 0 then line else linesize else align) ->
  posix malloc1 -> posix malloc2 -> power_of_two P -> P <= 2 ^ 63 -> 0 <= A <= 2 ^ 63 -> 0 < size -> 0 <= count ->
  power_of_two p -> A <= p -> (forall p', power_of_two p' -> A <= p' -> p <= p') -> size + p <= 2 ^ 64 -> least_multiple size p size' ->
  node_size * (2 + count) + Z.max P 8 <= 2 ^ 64 -> size' * count + Z.max P 8 <= 2 ^ 64 -> (2 + Z.to_nat count <= fuel)%nat ->
  exists bytes1 bytes2, size' * count <= bytes2 /\ node_size * (2 + count) <= bytes1 /\
  (fst (malloc1 (Z.max P 8) bytes1) <> 0 \/ fst (malloc2 (Z.max P 8) bytes2) <> 0 -> well_init page line malloc1 malloc2 fuel h size count align pagesize linesize = Some None) /\
  (fst (malloc1 (Z.max P 8) bytes1) = 0 -> fst (malloc2 (Z.max P 8) bytes2) = 0 ->
    exists h', well_init page line malloc1 malloc2 fuel h size count align pagesize linesize = Some (Some h') /\
      winv h' (objects (snd (malloc2 (Z.max P 8) bytes2)) size' (Z.to_nat count)) [] /\
      well_fini h' WELL = (snd (malloc2 (Z.max P 8) bytes2), snd (malloc1 (Z.max P 8) bytes1)) /\
      snd (malloc2 (Z.max P 8) bytes2) <> 0 /\ (P | snd (malloc2 (Z.max P 8) bytes2))).
Proof.
  intros EP EA PX1 PX2 PW PL AL SZ CT PWp Ap LEAST SP LM O1 O2 FU.
  assert (EPW : power A = Some p).
  { destruct (power_least A AL) as (q & Q1 & Q2 & Q3 & Q4). rewrite Q1. f_equal. apply Z.le_antisymm; [apply Q4; assumption|apply LEAST; assumption]. }
  assert (ESZ : alignment size p = size') by (apply (lm_unique size p); [apply alignment_least; [lia|assumption|assumption]|exact LM]).
  assert (SZ' : size <= size') by (apply (proj1 (proj2 LM))).
  assert (MX : 8 <= Z.max P 8) by lia.
  assert (U1 : u64 (node_size * u64 (2 + count)) = node_size * (2 + count)) by (unfold u64, node_size in *; rewrite (Z.mod_small (2 + count)) by lia; apply Z.mod_small; lia).
  assert (U2 : u64 (size' * count) = size' * count) by (unfold u64; apply Z.mod_small; nia).
  destruct (get_block_ok malloc1 P (node_size * (2 + count)) PX1 PW PL ltac:(unfold node_size; lia) O1) as (b1 & L1 & G1).
  destruct (get_block_ok malloc2 P (size' * count) PX2 PW PL ltac:(nia) O2) as (b2 & L2 & G2).
  exists b1, b2. split; [exact L2|]. split; [exact L1|]. unfold well_init. cbv zeta. rewrite <- EP, <- EA. rewrite U1.
  destruct (get_block malloc1 P (node_size * (2 + count))) as [control|]; [|split; [reflexivity|congruence]].
  rewrite EPW. cbn [bind]. rewrite ESZ, U2. destruct (get_block malloc2 P (size' * count)) as [dt|]; [|split; [reflexivity|congruence]].
  destruct G1 as (M1 & X1 & N1 & D1). destruct G2 as (M2 & X2 & N2 & D2). rewrite M1, M2. cbn [fst snd]. split; [intros [C|C]; congruence|]. intros _ _.
  assert (F0 : forall i, (i < 2)%nat -> fits control i = Some tt) by (intros i Hi; unfold fits; destruct (Z.leb_spec (node_size * (Z.of_nat i + 1)) (extent control)); [reflexivity|]; unfold node_size in *; lia).
  rewrite (F0 0%nat), (F0 1%nat) by lia. cbn [bind]. unfold FREE.
  set (h1 := datainit h WELL (address control)). set (h2 := datainit h1 (USED WELL) (address dt)).
  assert (R0 : represents h []) by (split; [constructor|constructor]).
  assert (R1 : represents h1 [[WELL]]) by (apply datainit_new; [exact R0|intros []]).
  assert (R2 : represents h2 [[USED WELL]; [WELL]]) by (apply datainit_new; [exact R1|intros [C|[]]; discriminate C]).
  destruct (fill_ok fuel (Z.to_nat count) 0 h2 control dt 0 size' []) as (h' & E & V & FI); [apply swap2, R2|reflexivity|unfold node_size in *; lia|rewrite Z2Nat.id by lia; lia|lia|lia|].
  rewrite E. cbn [bind]. exists h'. split; [reflexivity|]. split; [rewrite Z.add_0_r in V; exact V|]. split; [|split; assumption].
  rewrite FI. unfold well_fini, FREE. destruct (datainit_fields h1 (USED WELL) (address dt) (USED WELL)) as (_ & _ & _ & A1). rewrite Nat.eqb_refl in A1.
  destruct (datainit_fields h1 (USED WELL) (address dt) WELL) as (_ & _ & _ & A2). destruct (datainit_fields h WELL (address control) WELL) as (_ & _ & _ & A3). rewrite Nat.eqb_refl in A3.
  fold h2 in A1, A2. fold h1 in A3. change (WELL =? USED WELL)%nat with false in A2. rewrite A1, A2, A3. reflexivity.
Qed.

(** What an application sees. *)
Lemma r_run_facts objs ops inside out rs : NoDup objs -> r_run (objs, []) ops = Some (inside, out, rs) ->
  NoDup out /\ incl out objs /\ NoDup inside /\ incl inside objs /\ (length inside + length out = length objs)%nat /\ (forall p, In p inside -> ~ In p out).
Proof.
  intros N E. pose proof (r_run_perm _ _ _ _ _ _ E) as P. rewrite app_nil_r in P. pose proof (Permutation_NoDup P N) as NN.
  assert (D : forall p, In p inside -> ~ In p out). { intros p I O. apply in_split in I as (a & b & ->). rewrite <- app_assoc in NN. cbn in NN. apply NoDup_remove_2 in NN. apply NN. rewrite !in_app_iff. auto. }
  split; [clear - NN; induction inside as [|a i IH]; [exact NN|apply IH; cbn in NN; apply NoDup_cons_iff in NN as (_ & NN); exact NN]|].
  split; [intros p I; apply (Permutation_in _ (Permutation_sym P)), in_or_app; auto|].
  split; [clear - NN; induction inside as [|a i IH]; [constructor|cbn in NN; apply NoDup_cons_iff in NN as (A & NN); constructor; [intros C; apply A, in_or_app; auto|apply IH, NN]]|].
  split; [intros p I; apply (Permutation_in _ (Permutation_sym P)), in_or_app; auto|].
  split; [rewrite <- app_length; symmetry; apply Permutation_length, P|exact D].
Qed.
Lemma winv_next fuel h inside out : winv h inside out -> (2 + length inside + length out <= fuel)%nat ->
  exists h', well_alloc fuel h WELL = Some (h', hd 0 inside).
Proof.
  intros V L. destruct inside as [|x i].
  - destruct (well_step_ok fuel h [] out Alloc [] out 0 V L eq_refl) as (h' & E & _). exists h'. exact E.
  - destruct (well_step_ok fuel h (x :: i) out Alloc i (x :: out) x V L eq_refl) as (h' & E & _). exists h'. exact E.
Qed.

Lemma r_run_snoc : forall ops s i o rs x i' o' r, r_run s ops = Some (i, o, rs) -> r_step (i, o) x = Some (i', o', r) -> r_run s (ops ++ [x]) = Some (i', o', rs ++ [r]).
Proof.
  induction ops as [|a ops IH]; intros s i o rs x i' o' r E1 E2; cbn [r_run app] in *.
  - injection E1 as -> <-. rewrite E2. reflexivity.
  - destruct (r_step s a) as [(s1, r1)|]; [|discriminate]. destruct (r_run s1 ops) as [(s2, rs2)|] eqn:ER; [|discriminate]. injection E1 as -> <-.
    rewrite (IH s1 i o rs2 x i' o' r ER E2). reflexivity.
Qed.
Lemma take_some p : forall l, In p l -> exists l', take p l = Some l'.
Proof.
  induction l as [|x l IH]; [intros []|]. intros I. cbn. destruct (Z.eqb_spec x p); [eauto|]. destruct I as [->|I]; [contradiction|]. destruct (IH I) as (l' & ->). cbn. eauto.
Qed.
Lemma behaves_serves fuel h objs : behaves fuel h objs [] -> NoDup objs -> ~ In 0 objs -> serves fuel h objs.
Proof.
  intros B N Z0 ops inside out rs E. destruct (r_run_facts objs ops inside out rs N E) as (F1 & F2 & F3 & F4 & F5 & F6).
  split; [exact F1|]. split; [exact F2|]. split.
  - destruct inside as [|x i].
    + destruct (B _ _ _ _ (r_run_snoc ops _ _ _ _ Alloc [] out 0 E eq_refl)) as (h' & E' & _). exists h', 0. split; [exact E'|]. cbn in F5. split; [tauto|congruence].
    + destruct (B _ _ _ _ (r_run_snoc ops _ _ _ _ Alloc i (x :: out) x E eq_refl)) as (h' & E' & _). exists h', x. split; [exact E'|]. split.
      * split; [intros ->; exfalso; apply Z0, F4; left; reflexivity|cbn in F5; lia].
      * intros _. split; [apply F4; left; reflexivity|apply F6; left; reflexivity].
  - intros p P. destruct (take_some p out P) as (o' & T). destruct (B _ _ _ _ (r_run_snoc ops _ _ _ _ (Free p) (inside ++ [p]) o' 0 E ltac:(cbn; rewrite T; reflexivity))) as (h' & E' & _).
    exists h'. exact E'.
Qed.
Lemma objects_apart start size n : 0 < size -> apart size (objects start size n).
Proof. intros S p q P Q D. apply objects_in in P as (i & _ & ->). apply objects_in in Q as (j & _ & ->). assert (i <> j) by congruence. nia. Qed.
Lemma objects_within start size n p : 0 < size -> In p (objects start size n) -> start <= p /\ p + size <= start + size * Z.of_nat n.
Proof. intros S P. apply objects_in in P as (i & H & ->). nia. Qed.
Lemma objects_aligned a start size n : (a | start) -> (a | size) -> Forall (fun p => (a | p)) (objects start size n).
Proof. intros A B. apply Forall_forall. intros p P. apply objects_in in P as (i & _ & ->). apply Z.divide_add_r; [exact A|apply Z.divide_mul_l, B]. Qed.
