(** Properties C80 and C81. *)

From Coq Require Import ZArith List Bool Lia.
From Verif Require Import CInt CUtil DriverModel DriverSpec DriverProofs.
Import ListNotations.
Local Open Scope Z_scope.

(** Whatever the threads, their calls, the schedule and the interruptions, it is as if each
    call was done all at once, in the order in which they returned; each thread's calls
    return in the order in which they are made. *)
Theorem C80_sequential : forall base length m calls schedule,
  Forall (Forall (fun c => sized c /\ dir_write (cmd c) = true)) calls ->
  let s := run base length (start m calls) schedule in
  exists m', one_by_one base length (returns s) m m' /\
    (holder s = None -> mem s = m') /\
    (mem s <> m' -> exists c rc user, atomic base length c rc user m' (mem s)) /\
    forall i, exists rest, calls_of i (returns s) ++ rest = nth i calls [].
Proof.
  intros base length m calls schedule F s. destruct (inv_run base length schedule m calls _ F (inv_start base length m calls)) as (A & H & m' & O & M). fold s in A, H, O, M.
  exists m'. split; [exact O|]. destruct (holder s) as [j|] eqn:HS.
  - split; [discriminate|]. destruct M as (t & T & G). split; [|intros i; eexists; symmetry; apply A].
    intros N. destruct t as [cs|c cs|c new cs|c rc user cs|]; cbn [going] in G; try contradiction; [destruct G as (G & _); contradiction|]. exists c, rc, user. exact G.
  - split; [intros _; exact M|]. split; [congruence|]. intros i. eexists. symmetry. apply A.
Qed.
Print Assumptions C80_sequential.

(** So bits are set and cleared without losing what others set or clear at the same time:
    two threads that each set bits of a register, with no mask, end with all of them
    set, whatever the schedule. *)
Theorem C80_no_lost_update : forall base length m w a v1 v2 schedule, let zero := repeat 0 8 in
  let c v := mkcall SET (mkop a w v zero) true true in
  sized (c v1) -> sized (c v2) -> possible base length (arg (c v1)) ->
  let s := run base length (start m [[c v1]; [c v2]]) schedule in
  (exists u1 u2, returns s = [(0%nat, c v1, 0, u1); (1%nat, c v2, 0, u2)] \/ returns s = [(1%nat, c v2, 0, u2); (0%nat, c v1, 0, u1)]) -> holder s = None ->
  forall k i, 0 <= k < w -> 0 <= i < 8 ->
    Z.testbit (mem s (base + a + k)) i =
    Z.testbit (m (base + a + k)) i || Z.testbit (nth (Z.to_nat k) v1 0) i || Z.testbit (nth (Z.to_nat k) v2 0) i.
Proof.
  intros base length m w a v1 v2 schedule zero c S1 S2 P s R HS k i K I.
  destruct (C80_sequential base length m [[c v1]; [c v2]] schedule) as (m' & O & E & _).
  { repeat (constructor; [repeat (constructor; [split; [assumption|reflexivity]|]); constructor|]). constructor. }
  fold s in O, E. specialize (E HS). rewrite E. clear E.
  assert (Z0 : Z.testbit (octet_at base (mkop a w v1 zero) zero (base + a + k)) i = false).
  { unfold octet_at. cbn [offset]. replace (nth _ zero 0) with 0; [apply Z.testbit_0_l|]. unfold zero. destruct (nth_in_or_default (Z.to_nat (base + a + k - (base + a))) (repeat 0 8) 0) as [Q|Q]; [apply repeat_spec in Q; congruence|congruence]. }
  assert (A : forall v m1 m2 u, atomic base length (c v) 0 u m1 m2 -> Z.testbit (m2 (base + a + k)) i = Z.testbit (m1 (base + a + k)) i || Z.testbit (nth (Z.to_nat k) v 0) i).
  { intros v m1 m2 u [(_ & _ & B & _)|(Q & _)]; [|lia]. destruct (B (base + a + k)) as (B1 & _). cbn [cmd c arg mask value] in B1. rewrite B1 by (try exact I; unfold within; cbn [offset width]; lia).
    rewrite (Z0 : Z.testbit (octet_at base (mkop a w v zero) zero (base + a + k)) i = false). cbn [negb]. rewrite andb_true_r. unfold octet_at. cbn [offset]. replace (base + a + k - (base + a)) with k by lia. reflexivity. }
  assert (TWO : forall p q, one_by_one base length [p; q] m m' -> exists m1, atomic base length (snd (fst (fst p))) (snd (fst p)) (snd p) m m1 /\ atomic base length (snd (fst (fst q))) (snd (fst q)) (snd q) m1 m').
  { intros p q O'. inversion O' as [|l j x rc u mm m1 mm' O1 A1 EL]; subst. change [p; q] with ([p] ++ [q]) in EL. apply app_inj_tail in EL. destruct EL as (-> & <-). exists m1. split; [|exact A1].
    inversion O1 as [|l' j' x' rc' u' mm m2 mm' O2 A2 EL]; subst. change [p] with ([] ++ [p]) in EL. apply app_inj_tail in EL. destruct EL as (-> & <-). cbn [fst snd]. inversion O2 as [|l'' ? ? ? ? ? ? ? ? ? EL]; subst; [exact A2|destruct l''; discriminate EL]. }
  destruct R as (u1 & u2 & [R|R]); rewrite R in O; destruct (TWO _ _ O) as (m1 & A1 & A2); cbn [fst snd] in A1, A2; rewrite (A _ _ _ _ A2), (A _ _ _ _ A1); [reflexivity|].
  rewrite <- !orb_assoc. f_equal. apply orb_comm.
Qed.
Print Assumptions C80_no_lost_update.

(** No octet outside of the operation changes, so none outside of the block as long as the
    operation does not go beyond it. *)
Theorem C80_block : forall base length c rc user m m' a, atomic base length c rc user m m' -> 0 <= offset (arg c) -> offset (arg c) + width (arg c) <= length ->
  ~ (base <= a < base + length) -> m' a = m a.
Proof.
  intros base length c rc user m m' a [(_ & _ & B & _)|(_ & _ & -> & _)] O W N; [|reflexivity]. apply (proj2 (B a)). unfold within. lia.
Qed.
Print Assumptions C80_block.

(** But the driver does not look at the width: what is just beyond the block can be
    written. *)
Theorem C80_block_refuted : forall base length m, 0 <= length -> (base + length) mod 8 = 0 ->
  let c := mkcall WRITE (mkop length 8 (repeat 7 8) (repeat 0 8)) true true in
  let s := run base length (start m [[c]]) [(0%nat, false); (0%nat, false); (0%nat, false)] in
  returns s = [(0%nat, c, 0, arg c)] /\ forall k, 0 <= k < 8 -> mem s (base + length + k) = 7.
Proof.
  intros base length m L A c s.
  assert (P : kernel_put m (base + length) 8 (repeat 7 8) = Some (store m (base + length) (repeat 7 8))).
  { unfold kernel_put. cbn [valid Z.eqb orb Pos.eqb negb]. apply (aligned_iff (base + length) 8 ltac:(cbn; tauto)) in A. rewrite A. reflexivity. }
  assert (E : s = mksystem None (store m (base + length) (repeat 7 8)) [Idle []] [(0%nat, c, 0, arg c)]).
  { unfold s. cbn [run]. unfold start. cbn [map]. unfold step at 3. cbn [threads nth_error holder mem returns replace]. unfold step at 2. cbn [threads nth_error holder mem returns replace]. unfold perform. cbn [cmd c dir_write readable negb andb arg offset width value].
    destruct (Z.ltb_spec length length); [lia|]. rewrite P. unfold step. cbn [threads nth_error holder mem returns replace]. reflexivity. }
  rewrite E. cbn [returns mem]. split; [reflexivity|]. intros k K. rewrite store_at. rewrite repeat_length. destruct (Z.leb_spec (base + length) (base + length + k)); [|lia]. destruct (Z.ltb_spec (base + length + k) (base + length + Z.of_nat 8)); [|lia]. cbn [andb].
  destruct (nth_in_or_default (Z.to_nat (base + length + k - (base + length))) (repeat 7 8) 0) as [Q|Q]; [exact (repeat_spec _ _ _ Q)|]. exfalso. revert Q. replace (base + length + k - (base + length)) with k by lia.
  assert (KK : k = 0 \/ k = 1 \/ k = 2 \/ k = 3 \/ k = 4 \/ k = 5 \/ k = 6 \/ k = 7) by lia. destruct KK as [->|[->|[->|[->|[->|[->|[->| ->]]]]]]]; discriminate.
Qed.
Print Assumptions C80_block_refuted.

(** And setting does not stay within the mask. *)
Theorem C80_mask_refuted : exists c m m' user, atomic 0 8 c 0 user m m' /\ cmd c = SET /\ mask (arg c) = repeat 0 8 /\ m' 0 <> m 0.
Proof.
  exists (mkcall SET (mkop 0 1 (255 :: repeat 0 7) (repeat 0 8)) true true), (fun _ => 0), (fun a => if a =? 0 then 255 else 0), (mkop 0 1 (255 :: repeat 0 7) (repeat 0 8)).
  split; [|split; [reflexivity|split; [reflexivity|discriminate]]]. left. split; [reflexivity|]. split.
  { split; [split; [cbn; lia|split; [cbn; tauto|reflexivity]]|]. split; [reflexivity|]. split; [cbn; tauto|discriminate]. }
  split; [|reflexivity]. intros a. unfold within. cbn [arg cmd offset width mask value]. split; intros W.
  - assert (a = 0) as -> by lia. intros i I. cbn [Z.eqb]. rewrite Z.testbit_0_l. cbn [andb orb]. reflexivity.
  - destruct (Z.eqb_spec a 0); [lia|reflexivity].
Qed.
Print Assumptions C80_mask_refuted.

(** A command that is unknown and tells of no data uses an operation nothing was put in,
    before it is found to be unknown. *)
Theorem C80_command_refuted : forall base length m c calls, cmd c = OTHER false -> perform base length m c calls = (Lost, m).
Proof. intros base length m c calls C. unfold perform. rewrite C. reflexivity. Qed.
Print Assumptions C80_command_refuted.

(** A case in which the hypotheses hold: a thread sets bits and another clears some; one is
    in between while the other wants to begin. *)
Example C80_example :
  let set := mkcall SET (mkop 2 2 [1; 2; 0; 0; 0; 0; 0; 0] (repeat 0 8)) true true in
  let clear := mkcall CLEAR (mkop 2 1 [16; 0; 0; 0; 0; 0; 0; 0] (repeat 0 8)) true true in
  let s := run 100 4 (start (fun _ => 48) [[set]; [clear]]) [(0%nat, false); (0%nat, false); (1%nat, false); (0%nat, false); (1%nat, false); (0%nat, false); (1%nat, false); (1%nat, false); (1%nat, false); (1%nat, false)] in
  sized set /\ sized clear /\ possible 100 4 (arg set) /\ map (fun '(i, _, rc, _) => (i, rc)) (returns s) = [(0%nat, 0); (1%nat, 0)] /\ holder s = None /\ map (mem s) [101; 102; 103; 104] = [48; 33; 50; 48].
Proof.
  cbv zeta. repeat match goal with |- sized _ /\ _ => split; [split; [reflexivity|split; [reflexivity|cbn [arg value mask repeat]; split; repeat (apply Forall_cons; [lia|]); apply Forall_nil]]|] end.
  split; [split; [cbn; lia|split; [cbn; tauto|reflexivity]]|]. split; [reflexivity|]. split; reflexivity.
Qed.
Print Assumptions C80_example.

(** * C81 *)

(** If memory is mapped then all of the block is, and the base is where it begins: what is
    at the base and as much after it as the block is long is in the mapping, and is the
    block. What is mapped begins with a page if that is asked for. Otherwise nothing is
    mapped. *)
Theorem C81_map : forall PAGE_SIZE page k start length exclusive align, 0 < PAGE_SIZE -> 0 <= length ->
  let '(rc, region, base, v, k') := kernel_map PAGE_SIZE page k start length exclusive align in
  (rc = 0 -> page = Some v /\ exists address size, mappings k' = (v, address, size) :: mappings k /\
     base - v = start - address /\ address <= start /\ start + length <= address + size /\ size - length < PAGE_SIZE /\
     (align = true -> address mod PAGE_SIZE = 0) /\ (exclusive = false -> region = None /\ regions k' = regions k) /\
     (exclusive = true -> region = Some (start, start + length - 1) /\ regions k' = (start, start + length - 1) :: regions k)) /\
  (rc <> 0 -> mappings k' = mappings k).
Proof.
  intros PAGE_SIZE page k start length exclusive align P L. unfold kernel_map.
  set (offset := if align then start mod PAGE_SIZE else 0). pose proof (Z.mod_pos_bound start PAGE_SIZE P) as MB.
  assert (OB : 0 <= offset < PAGE_SIZE) by (unfold offset; destruct align; lia).
  assert (OA : align = true -> (start - offset) mod PAGE_SIZE = 0) by (intros ->; unfold offset; rewrite Zminus_mod_idemp_r, Z.sub_diag; apply Z.mod_0_l; lia).
  destruct exclusive.
  - unfold request_mem_region. destruct (existsb _ (regions k)); [split; [discriminate|reflexivity]|]. unfold ioremap. destruct page as [v|]; [|split; [discriminate|reflexivity]].
    cbn [mappings regions]. split; [|congruence]. intros _. split; [reflexivity|]. exists (start - offset), (length + offset). split; [reflexivity|]. repeat (split; [lia|]). split; [exact OA|]. split; [discriminate|]. intros _. split; reflexivity.
  - unfold ioremap. destruct page as [v|]; [|split; [discriminate|reflexivity]].
    cbn [mappings regions]. split; [|congruence]. intros _. split; [reflexivity|]. exists (start - offset), (length + offset). split; [reflexivity|]. repeat (split; [lia|]). split; [exact OA|]. split; [intros _; split; reflexivity|discriminate].
Qed.
Print Assumptions C81_map.

(** Unmapping leaves the kernel as it was, if the memory is not mapped exclusively. *)
Theorem C81_unmap : forall PAGE_SIZE page k start length align rc region base v k', page <> Some 0 -> (forall w a n, In (w, a, n) (mappings k) -> Some w <> page) ->
  kernel_map PAGE_SIZE page k start length false align = (rc, region, base, v, k') -> rc = 0 -> kernel_unmap k' v region = k.
Proof.
  intros PAGE_SIZE page k start length align rc region base v k' Z0 F E R. unfold kernel_map, ioremap in E. destruct page as [w|]; [|injection E as <- _ _ _ _; discriminate R].
  injection E as _ <- _ <- <-. unfold kernel_unmap. destruct (Z.eqb_spec w 0); [congruence|]. unfold iounmap. cbn [regions mappings filter]. rewrite Z.eqb_refl. cbn [negb].
  destruct k as [r m]. cbn [regions mappings] in *. f_equal. clear - F. induction m as [|((w' & a) & n) m IH]; [reflexivity|]. cbn [filter]. destruct (Z.eqb_spec w' w) as [->|N]; [exfalso; exact (F w a n (or_introl eq_refl) eq_refl)|].
  cbn [negb]. f_equal. apply IH. intros w'' a' n' I. apply (F w'' a' n'). right. exact I.
Qed.
Print Assumptions C81_unmap.

(** But a block of two octets or more that is mapped exclusively is never released: what is
    released is one octet less. So it cannot be mapped again, nor can it if mapping it
    failed. *)
Theorem C81_release_refuted : forall PAGE_SIZE v page start length align, 2 <= length ->
  let k := mkkernel [] [] in
  let '(_, region, _, _, k1) := kernel_map PAGE_SIZE (Some v) k start length true align in
  let '(rc, _, _, _, _) := kernel_map PAGE_SIZE page (kernel_unmap k1 v region) start length true align in
  let '(_, _, _, _, k2) := kernel_map PAGE_SIZE None k start length true align in
  let '(rc', _, _, _, _) := kernel_map PAGE_SIZE page k2 start length true align in
  rc = - EPERM /\ rc' = - EPERM.
Proof.
  intros PAGE_SIZE v page start length align L. cbv zeta. unfold kernel_map, request_mem_region, ioremap, kernel_unmap, release_mem_region. cbn [regions mappings existsb].
  assert (N : remove_region (start, start + (start + length - 1 - start) - 1) [(start, start + length - 1)] = [(start, start + length - 1)]).
  { cbn [remove_region]. unfold same. cbn [fst snd]. rewrite Z.eqb_refl. destruct (Z.eqb_spec (start + (start + length - 1 - start) - 1) (start + length - 1)); [lia|reflexivity]. }
  assert (O : overlaps (start, start + length - 1) (start, start + length - 1) = true) by (unfold overlaps; cbn [fst snd]; destruct (Z.leb_spec start (start + length - 1)); [reflexivity|lia]).
  destruct (v =? 0); unfold iounmap; cbn [regions mappings]; rewrite N; cbn [existsb]; rewrite O; split; reflexivity.
Qed.
Print Assumptions C81_release_refuted.

(** The driver has all it needs if it was loaded, and nothing once it is unloaded; if it
    has a number of its own, and loading it fails, it has nothing. *)
Theorem C81_module : forall major a b c, let '(ok, m) := module_init major a b c in
  ok = a && b && c /\
  (ok = true -> mapped m = true /\ procfs m = true /\ (chrdev m = true <-> major <> 0) /\ (miscdev m = true <-> major = 0) /\ module_exit major m = mkmodule false false false false) /\
  (ok = false -> major <> 0 -> m = mkmodule false false false false).
Proof.
  intros major a b c. unfold module_init. destruct a, b, c; cbn [negb andb]; (split; [reflexivity|]); split; try discriminate; try (intros _ _; reflexivity).
  - intros _. unfold module_exit. cbn. destruct (Z.eqb_spec major 0); cbn; repeat split; congruence.
  - intros _ M. destruct (Z.eqb_spec major 0); [contradiction|reflexivity].
Qed.
Print Assumptions C81_module.

(** If it has not, the device stays. *)
Theorem C81_module_refuted : fst (module_init 0 true true false) = false /\ miscdev (snd (module_init 0 true true false)) = true.
Proof. split; reflexivity. Qed.
Print Assumptions C81_module_refuted.

(** A case in which the hypotheses hold. *)
Example C81_example : kernel_map 4096 (Some 65536) (mkkernel [(0, 15)] []) 0x48310038 4 true true =
  (0, Some (0x48310038, 0x4831003b), 0x10038, 0x10000, mkkernel [(0x48310038, 0x4831003b); (0, 15)] [(0x10000, 0x48310000, 60)]).
Proof. reflexivity. Qed.
Print Assumptions C81_example.
