(** Properties of object pools: C32. *)

From Coq Require Import ZArith List Bool Arith Lia Permutation.
From Verif Require Import CInt CUtil ListModel ListSpec WellModel PoolModel PoolSpec PoolProofs PoolProofs2 PoolProofs3.
Import ListNotations.
Local Open Scope nat_scope.

(** Several pools, and a program that also has nodes and lists of its own, into which it
    links objects while it has them: for every history of allocations, of objects
    returned, of list operations, and of pools emptied, each call returns what the
    specification says. *)
Theorem C32_pool : forall fuel h ps own ops s results,
  NoDup (map fst ps ++ own) -> Forall (fun e => 0 <= snd e /\ snd e + 39 < 2 ^ 64)%Z ps ->
  p_run (start ps own) ops = Some (s, results) -> length ps + length own + length ops <= fuel ->
  exists h', pool_run fuel (pools_init h ps own) ops = Some (h', results) /\
    represents h' (map (fun k => name k :: queue k) (pools s) ++ lists s).
Proof.
  intros fuel h ps own ops s rs N F E L. pose proof (start_ok h ps own N F) as V.
  destruct (pool_run_ok fuel ops _ _ s rs V) as (h' & E' & V'); [unfold sz; rewrite nodes_rings, rings_start, app_length, map_length; exact L|exact E|]. exists h'. split; [exact E'|]. exact (proj1 V').
Qed.
Print Assumptions C32_pool.

(** In particular: after any history an object is only in one place (a pool, or out, on
    one list of the program at most); and the next allocation returns what was returned
    to the pool the longest ago, without asking the heap; if there is nothing it asks the
    heap for enough, and returns that. It is never an object that is out. *)
Theorem C32_pool_next : forall fuel h ps own ops s results p m,
  NoDup (map fst ps ++ own) -> Forall (fun e => 0 <= snd e /\ snd e + 39 < 2 ^ 64)%Z ps ->
  p_run (start ps own) ops = Some (s, results) -> length ps + length own + length ops < fuel ->
  In p (map fst ps) -> ~ In m (nodes s) ->
  NoDup (nodes s) /\ NoDup (map fst (out s)) /\
  (forall x q, In (x, q) (out s) -> In x (concat (lists s)) /\ forall k, In k (pools s) -> ~ In x (queue k)) /\
  exists h' k x asked, pool_of p s = Some k /\ pool_run fuel (pools_init h ps own) (ops ++ [PAlloc p m]) = Some (h', results ++ [Got x asked]) /\
    match queue k with
    | y :: _ => x = y /\ asked = None
    | [] => x = m /\ exists z, asked = Some z /\ (32 + bytes k <= z)%Z
    end /\ (x <> 0 -> ~ In x (map fst (out s))).
Proof.
  intros fuel h ps own ops s rs p m N F E L P M. pose proof (start_ok h ps own N F) as V.
  assert (SZ : sz (start ps own) = length ps + length own) by (unfold sz; rewrite nodes_rings, rings_start, app_length, map_length; reflexivity).
  destruct (pool_run_ok fuel ops _ _ s rs V ltac:(lia) E) as (h1 & E1 & V1). destruct (pinv_places h1 s V1) as (PL1 & PL2 & PL3). split; [exact PL1|]. split; [exact PL2|]. split; [exact PL3|].
  destruct (pool_of_in s p) as (k & PK).
  { rewrite (p_run_names _ _ _ _ E). unfold start. cbn [pools]. rewrite map_map. replace (map (fun x => name (let '(p0, size) := x in Pool p0 size [])) ps) with (map fst ps); [exact P|]. apply map_ext. intros (a, b). reflexivity. }
  assert (OK : forall s2 r, p_step s (PAlloc p m) = Some (s2, r) -> exists h', pool_run fuel (pools_init h ps own) (ops ++ [PAlloc p m]) = Some (h', rs ++ [r])).
  { intros s2 r E2. destruct (pool_run_ok fuel (ops ++ [PAlloc p m]) _ _ s2 (rs ++ [r]) V) as (h2 & E3 & _); [rewrite app_length, SZ; cbn [length]; lia|eapply p_run_snoc; eassumption|]. exists h2. exact E3. }
  assert (NEED : (32 + bytes k <= need k)%Z) by (unfold need; pose proof (Z.div_mod (32 + bytes k + 7) 8); pose proof (Z.mod_pos_bound (32 + bytes k + 7) 8); lia).
  assert (OUT : forall x, In x (map fst (out s)) -> In x (concat (lists s)) /\ forall k, In k (pools s) -> ~ In x (queue k)) by (intros x X; apply in_map_iff in X as ((x', q) & <- & X); exact (PL3 x' q X)).
  cbn [p_step] in OK. rewrite PK in OK. destruct (queue k) as [|y q] eqn:QK.
  - destruct (Nat.eqb_spec m 0) as [->|M0].
    + destruct (OK _ _ eq_refl) as (h2 & E3). exists h2, k, 0, (Some (need k)). rewrite QK. split; [exact PK|]. split; [exact E3|]. split; [split; [reflexivity|eauto]|congruence].
    + assert (ME : mem m (nodes s) = false) by (apply ListProofs.mem_not, M). rewrite ME in OK. destruct (OK _ _ eq_refl) as (h2 & E3). exists h2, k, m, (Some (need k)). rewrite QK. split; [exact PK|]. split; [exact E3|]. split; [split; [reflexivity|eauto]|].
      intros _ C. apply M. unfold nodes. apply in_or_app. right. apply OUT, C.
  - destruct (OK _ _ eq_refl) as (h2 & E3). exists h2, k, y, None. rewrite QK. split; [exact PK|]. split; [exact E3|]. split; [auto|]. intros _ C. apply (proj2 (OUT y C) k).
    + unfold pool_of in PK. apply find_some in PK. tauto.
    + rewrite QK. left. reflexivity.
Qed.
Print Assumptions C32_pool_next.

(** A history: two pools (1 and 2), a list of the program (3). Objects 10 and 11 come
    from the heap, 12 from the other pool; one is returned while it is still on the list
    of the program, and is handed out next. *)
Example C32_pool_ex :
  let ops := [PAlloc 1 10; PAlloc 1 11; PAlloc 2 12; PUse (Enqueue 3 10); PUse (Enqueue 3 12); PUse (Enqueue 3 11); PFree 12; PFree 10; PUse (Dequeue 3); PAlloc 1 20; PFree 11; PAlloc 1 0; PAlloc 2 21; PAlloc 2 0; PFree 10; PFini 1] in
  exists s, p_run (start [(1, 10%Z); (2, 8%Z)] [3]) ops =
    Some (s, [Got 10 (Some 48%Z); Got 11 (Some 48%Z); Got 12 (Some 40%Z); Returned 10; Returned 12; Returned 11; Done; Done; Returned 11; Got 10 None; Done; Got 11 None; Got 12 None; Got 0 (Some 40%Z); Done; Freed [10]]) /\
  option_map snd (pool_run 40 (pools_init (fun _ => Node 0 0 0 0%Z) [(1, 10%Z); (2, 8%Z)] [3]) ops) =
    Some [Got 10 (Some 48%Z); Got 11 (Some 48%Z); Got 12 (Some 40%Z); Returned 10; Returned 12; Returned 11; Done; Done; Returned 11; Got 10 None; Done; Got 11 None; Got 12 None; Got 0 (Some 40%Z); Done; Freed [10]].
Proof. eexists. split; [vm_compute; reflexivity|vm_compute; reflexivity]. Qed.

(** Without the bound on the size the sum wraps round: the block that the heap is asked
    for has no room for the link, which is written. *)
Theorem C32_pool_size_refuted : forall h, exists size, (0 <= size < 2 ^ 64)%Z /\ pool_allocation size = 0%Z /\
  pool_run 9 (pools_init h [(1, size)] []) [PAlloc 1 10] = None.
Proof.
  intros h. exists (2 ^ 64 - 32)%Z. split; [lia|]. split; [vm_compute; reflexivity|]. vm_compute. reflexivity.
Qed.
Print Assumptions C32_pool_size_refuted.
