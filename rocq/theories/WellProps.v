(** Properties of wells: C32. *)

From Coq Require Import ZArith List Bool Arith Lia Permutation.
From Verif Require Import CInt CUtil MemoryModel MemorySpec MemoryProofs ListModel WellModel WellSpec WellProofs WellProofs2.
Import ListNotations.
Local Open Scope Z_scope.

(** A well of [count] objects. [P] is the page size and [A] the alignment that apply
    (the defaults if the arguments are 0), [p] the least power of two that is not below
    [A], and [size'] the least multiple of [p] that is not below [size]. Either an
    allocation fails, and so does the call; or the well consists of [count] objects of
    [size'] octets, one after the other in the block that the allocator returned, and it
    serves these for every history of calls. The two blocks are what is freed in the
    end. *)
Theorem C32_well : forall page line malloc1 malloc2 fuel h size count align pagesize linesize P A p size',
  P = (if pagesize =? 0 then page else pagesize) -> A = (if align =? 0 then if linesize =? 0 then line else linesize else align) ->
  posix malloc1 -> posix malloc2 -> (forall a s, is_u64 (snd (malloc2 a s))) ->
  power_of_two P -> P <= 2 ^ 63 -> 0 <= A <= 2 ^ 63 -> 0 < size -> 0 <= count ->
  power_of_two p -> A <= p -> (forall p', power_of_two p' -> A <= p' -> p <= p') -> size + p <= 2 ^ 64 -> least_multiple size p size' ->
  32 * (2 + count) + Z.max P 8 <= 2 ^ 64 -> size' * count + Z.max P 8 <= 2 ^ 64 -> (2 + Z.to_nat count <= fuel)%nat ->
  exists bytes1 bytes2, size' * count <= bytes2 /\ 32 * (2 + count) <= bytes1 /\
  let '(rc1, control) := malloc1 (Z.max P 8) bytes1 in
  let '(rc2, start) := malloc2 (Z.max P 8) bytes2 in
  let objs := objects start size' (Z.to_nat count) in
  (rc1 <> 0 \/ rc2 <> 0 -> well_init page line malloc1 malloc2 fuel h size count align pagesize linesize = Some None) /\
  (rc1 = 0 -> rc2 = 0 ->
    exists h', well_init page line malloc1 malloc2 fuel h size count align pagesize linesize = Some (Some h') /\
      serves fuel h' objs /\ behaves fuel h' objs [] /\ length objs = Z.to_nat count /\ NoDup objs /\ apart size' objs /\
      Forall (fun x => start <= x /\ x + size' <= start + bytes2) objs /\
      (p <= P -> Forall (fun x => (p | x)) objs) /\
      well_fini h' WELL = (start, control)).
Proof.
  intros page line malloc1 malloc2 fuel h size count align pagesize linesize P A p size' EP EA PX1 PX2 POS PW PL AL SZ CT PWp Ap LEAST SP LM O1 O2 FU.
  destruct (well_init_ok page line malloc1 malloc2 fuel h size count align pagesize linesize P A p size' EP EA PX1 PX2 PW PL AL SZ CT PWp Ap LEAST SP LM O1 O2 FU) as (b1 & b2 & L2 & L1 & F1 & F2).
  exists b1, b2. split; [exact L2|]. split; [exact L1|]. pose proof (POS (Z.max P 8) b2) as PS. destruct (malloc1 (Z.max P 8) b1) as (rc1, control). destruct (malloc2 (Z.max P 8) b2) as (rc2, start). cbn [fst snd] in *.
  split; [exact F1|]. intros Z1 Z2. destruct (F2 Z1 Z2) as (h' & E & V & FI & N0 & DV). exists h'. split; [exact E|].
  assert (SP' : 0 < size') by (pose proof (proj1 (proj2 LM)); lia).
  assert (B : behaves fuel h' (objects start size' (Z.to_nat count)) []) by (apply winv_behaves; [exact V|rewrite objects_length; cbn; lia]).
  split; [|split; [exact B|split; [apply objects_length|split; [apply objects_nodup, SP'|split; [apply objects_apart, SP'|split; [|split; [|exact FI]]]]]]].
  - apply behaves_serves; [exact B|apply objects_nodup, SP'|]. intros C. apply objects_within in C; [|exact SP']. unfold is_u64 in PS. lia.
  - apply Forall_forall. intros x X. apply objects_within in X; [|exact SP']. rewrite Z2Nat.id in X by lia. lia.
  - intros LE. assert (DD : (p | P)). { destruct PWp as (a & A0 & ->), PW as (b & B0 & ->). assert (a <= b) by (apply (Z.pow_le_mono_r_iff 2); lia). exists (2 ^ (b - a)). rewrite <- Z.pow_add_r by lia. f_equal. lia. }
    apply objects_aligned; [eapply Z.divide_trans; eassumption|exact (proj1 LM)].
Qed.
Print Assumptions C32_well.

Lemma example_posix start : start <> 0 -> (4096 | start) -> posix (example_malloc start).
Proof. intros N D a s. unfold example_malloc. destruct (Z.eqb_spec a 4096) as [->|]; [|split; [discriminate|lia]]. split; [|lia]. intros _. split; [exists 12; split; [lia|reflexivity]|]. split; [exists 512; reflexivity|]. auto. Qed.
Example C32_well_ex :
  run_well [Alloc; Alloc; Free 8192; Alloc; Alloc; Alloc; Free 8256; Alloc] = Some [8192; 8256; 0; 8320; 8192; 0; 0; 8256] /\
  r_run (objects 8192 64 3, []) [Alloc; Alloc; Free 8192; Alloc; Alloc; Alloc; Free 8256; Alloc] = Some ([], [8256; 8192; 8320], [8192; 8256; 0; 8320; 8192; 0; 0; 8256]) /\
  posix (example_malloc 8192) /\ power_of_two 4096 /\ power_of_two 64 /\ least_multiple 10 64 64 /\ alignment 10 64 = 64.
Proof.
  split; [vm_compute; reflexivity|]. split; [vm_compute; reflexivity|]. split; [apply example_posix; [lia|exists 2; reflexivity]|]. split; [exists 12; split; [lia|reflexivity]|]. split; [exists 6; split; [lia|reflexivity]|].
  split; [|vm_compute; reflexivity]. split; [exists 1; reflexivity|]. split; [lia|]. intros m (k & ->) H. nia.
Qed.

(** The conditions of C32_well are needed. A well never checks what is returned to it:
    an object that is returned twice is then handed out to two users, although another
    is not out at all. *)
Theorem C32_well_double_free_refuted : exists ops a, run_well ops = Some [8192; 8256; 8320; 0; 0; a; a] /\ ops = [Alloc; Alloc; Alloc; Free a; Free a; Alloc; Alloc].
Proof. exists [Alloc; Alloc; Alloc; Free 8192; Free 8192; Alloc; Alloc], 8192. split; [vm_compute; reflexivity|reflexivity]. Qed.
Print Assumptions C32_well_double_free_refuted.

(** Nor is the computation of sizes checked: with this many objects the size of the
    block for control wraps round to that of one node, and the second node, which is
    initialised, is outside. *)
Theorem C32_well_overflow_refuted : exists count, 0 < count < 2 ^ 63 /\
  well_init 8 8 (fun _ _ => (0, 4096)) (fun _ _ => (0, 8192)) 10 empty_heap 1 count 8 8 8 = None.
Proof. exists (2 ^ 59 - 1). split; [lia|]. vm_compute. reflexivity. Qed.
Print Assumptions C32_well_overflow_refuted.
(** The same happens to the size of the block for the objects. *)
Theorem C32_well_size_overflow_refuted : exists size, 0 < size < 2 ^ 64 /\
  well_init 8 8 (fun _ _ => (0, 4096)) (fun _ _ => (0, 8192)) 10 empty_heap size 2 8 8 8 = None.
Proof. exists (2 ^ 63 + 8). split; [lia|]. vm_compute. reflexivity. Qed.
Print Assumptions C32_well_size_overflow_refuted.

(** An alignment larger than a page is not honoured: the block is aligned to a page. *)
Theorem C32_well_alignment_refuted : exists h h' p, posix (example_malloc 4096) /\
  well_init 4096 64 (example_malloc 4096) (example_malloc 4096) 5 empty_heap 10 1 8192 0 0 = Some (Some h) /\ well_alloc 5 h WELL = Some (h', p) /\ ~ (8192 | p).
Proof.
  destruct (well_init 4096 64 (example_malloc 4096) (example_malloc 4096) 5 empty_heap 10 1 8192 0 0) as [[h|]|] eqn:E; [|exfalso|exfalso].
  - destruct (well_alloc 5 h WELL) as [(h', p)|] eqn:E2.
    + exists h, h', p. split; [apply example_posix; [lia|exists 1; reflexivity]|]. split; [reflexivity|]. split; [exact E2|].
      assert (EE : match well_init 4096 64 (example_malloc 4096) (example_malloc 4096) 5 empty_heap 10 1 8192 0 0 with Some (Some h) => option_map snd (well_alloc 5 h WELL) | _ => None end = Some 4096) by (vm_compute; reflexivity).
      rewrite E, E2 in EE. injection EE as ->. intros (k & K). lia.
    + assert (EE : match well_init 4096 64 (example_malloc 4096) (example_malloc 4096) 5 empty_heap 10 1 8192 0 0 with Some (Some h) => option_map snd (well_alloc 5 h WELL) | _ => None end = Some 4096) by (vm_compute; reflexivity).
      rewrite E, E2 in EE. discriminate.
  - assert (EE : match well_init 4096 64 (example_malloc 4096) (example_malloc 4096) 5 empty_heap 10 1 8192 0 0 with Some (Some h) => 1 | _ => 0 end = 1) by (vm_compute; reflexivity). rewrite E in EE. discriminate.
  - assert (EE : match well_init 4096 64 (example_malloc 4096) (example_malloc 4096) 5 empty_heap 10 1 8192 0 0 with Some (Some h) => 1 | _ => 0 end = 1) by (vm_compute; reflexivity). rewrite E in EE. discriminate.
Qed.
Print Assumptions C32_well_alignment_refuted.

(** Objects of size zero are all the same object. *)
Theorem C32_well_size_zero_refuted :
  match well_init 4096 64 (example_malloc 4096) (example_malloc 8192) 5 empty_heap 0 2 0 0 0 with
  | Some (Some h) => option_map snd (well_run 5 h [Alloc; Alloc]) | _ => None end = Some [8192; 8192].
Proof. vm_compute. reflexivity. Qed.
Print Assumptions C32_well_size_zero_refuted.
