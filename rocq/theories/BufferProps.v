(** Properties C30 and C31. *)

From Coq Require Import ZArith List Bool Lia Sorting.Sorted Sorting.Permutation.
From Verif Require Import CInt CUtil BufferModel BufferSpec BufferProofs BufferProofs2 BufferProofs3 BufferProofs4.
Import ListNotations.
Local Open Scope Z_scope.

(** The pool of the library satisfies the hypothesis on the sizes. *)
Example C30_pool : pool_ok POOL.
Proof. split; repeat constructor; unfold LIMIT; lia. Qed.

(** No history of permitted calls reaches undefined behaviour: after any history
    every permitted call (the underlying malloc doing whatever it may) is defined.
    It leaves alone the contents of every buffer the application has except the
    one it was given. *)
Theorem C30_defined : forall sizes m h s live o,
  pool_ok sizes -> history sizes (init sizes m) h s live -> permitted live o ->
  exists s' r, step sizes s o = Some (s', r) /\
    forall p n i, In (p, n) live -> p <> argument o -> 0 <= i < n -> mem s' (p + i) = mem s (p + i).
Proof.
  intros sizes m h s live o P H Q. apply pool_sizes_ok in P as SO. destruct (history_inv sizes SO m h s live H) as (frees & I).
  destruct (step_ok sizes SO s live frees o I Q) as (s' & r & E & (_ & F)). exists s', r. split; [exact E|].
  intros p n i J NE B. destruct (live_pos sizes SO s live frees p n I J) as (_ & _ & C & _).
  apply (F p n); [|lia]. apply forget_in. auto.
Qed.
Print Assumptions C30_defined.

(** After any history, each buffer the application has is not null, is aligned to
    eight octets, and has room: it lies in a block of the heap of its own size
    class; and no two buffers share an octet. *)
Theorem C30_exclusive : forall sizes m h s live,
  pool_ok sizes -> history sizes (init sizes m) h s live ->
  NoDup (map fst live) /\
  (forall p n, In (p, n) live -> 0 < p /\ p mod 8 = 0 /\ 0 < n /\ allocated s p n) /\
  (forall p n q k, In (p, n) live -> In (q, k) live -> p <> q -> apart p n q k).
Proof.
  intros sizes m h s live P H. apply pool_sizes_ok in P as SO. destruct (history_inv sizes SO m h s live H) as (frees & I).
  destruct (live_apart sizes s live frees SO I) as (N & A). split; [exact N|]. split.
  - intros p n J. destruct (live_pos sizes SO s live frees p n I J) as (A1 & A2 & A3 & A4 & A5).
    split; [lia|]. split; [exact A2|]. split; [lia|]. exists (p - 8), (class sizes n + 8). split; [exact A5|]. lia.
  - intros p n q k J K NE. destruct (live_pos sizes SO s live frees p n I J) as (_ & _ & A3 & _).
    destruct (live_pos sizes SO s live frees q k I K) as (_ & _ & B3 & _). destruct (A p n q k J K NE); unfold apart; lia.
Qed.
Print Assumptions C30_exclusive.

(** A history to which the theorems apply. *)
Definition SAY (b : Z) : answer := Some (b, fun _ => 170).
Definition state_of (x : option (st * Z)) : st := match x with Some (s, _) => s | None => init [] (fun _ => 0) end.
Definition result_of (x : option (st * Z)) : option Z := match x with Some (_, r) => Some r | None => None end.
Lemma split_step x r : result_of x = Some r -> x = Some (state_of x, r).
Proof. destruct x as [(s & z)|]; cbn; congruence. Qed.
Ltac call H o :=
  match type of H with history ?sizes ?s0 ?h ?s ?live =>
    let x := eval vm_compute in (result_of (step sizes s o)) in
    match x with Some ?r =>
      let Y := fresh in
      assert (Y : history sizes s0 (h ++ [(o, r)]) (state_of (step sizes s o)) (after live o r));
      [apply (H_step sizes s0 h s live o _ r H); [|apply split_step; vm_compute; reflexivity]|
       clear H; rename Y into H; let a := eval vm_compute in (after live o r) in change (after live o r) with a in H]
    end
  end.
Example C30_history_example : exists s h,
  history POOL (init POOL (fun _ => 0)) h s [(1008, 100); (8008, 9)] /\
  map snd h = [1008; 2008; 8008; 0; 0; 1008].
Proof.
  pose proof (H_init POOL (init POOL (fun _ => 0))) as H.
  call H (Malloc 65 (SAY 1000)); [cbn; unfold LIMIT; lia|].
  call H (Malloc 5000 (SAY 2000)); [cbn; unfold LIMIT; lia|].
  call H (Realloc 2008 9 (SAY 8000)); [cbn; unfold LIMIT; split; [right; exists 5000; auto|lia]|].
  call H (Store 1008 64 7); [exists 65; split; [right; left; reflexivity|lia]|].
  call H (Free 1008); [right; exists 65; right; left; reflexivity|].
  call H (Malloc 100 None); [cbn; unfold LIMIT; lia|].
  eexists. eexists. split; [exact H|]. reflexivity.
Qed.

(** What malloc returns is not in use, and it is either a block that was freed
    earlier and has the size class of the request, or a new block. *)
Theorem C30_recycle_class : forall sizes m h s live n a s' r,
  pool_ok sizes -> history sizes (init sizes m) h s live -> 0 <= n < LIMIT ->
  step sizes s (Malloc n a) = Some (s', r) -> r <> 0 ->
  (forall k, ~ In (r, k) live) /\
  (heap s' = heap s /\ In (r - 8, class sizes n + 8) (heap s) \/ heap s' = (r - 8, class sizes n + 8) :: heap s).
Proof.
  intros sizes m h s live n a s' r P H N E R. apply pool_sizes_ok in P as SO.
  destruct (history_inv sizes SO m h s live H) as (frees & I). exact (malloc_origin sizes s live frees n a s' r SO I N E R).
Qed.
Print Assumptions C30_recycle_class.

(** A buffer of a pooled size that is freed is what the next request of the same
    size class gets, even if the underlying malloc would fail. *)
Theorem C30_recycles : forall sizes m h s live p n k a,
  pool_ok sizes -> history sizes (init sizes m) h s live -> In (p, n) live -> 0 < k < LIMIT ->
  class sizes k = class sizes n -> In (class sizes n) sizes ->
  exists s1 s2, step sizes s (Free p) = Some (s1, 0) /\ step sizes s1 (Malloc k a) = Some (s2, p) /\ heap s2 = heap s.
Proof.
  intros sizes m h s live p n k a P H J K C D. apply pool_sizes_ok in P as SO.
  destruct (history_inv sizes SO m h s live H) as (frees & I).
  destruct (recycles sizes s live frees p n k a SO I J K C D) as (s1 & s2 & E1 & E2 & Hh). exists s1, s2.
  cbn [step]. rewrite E1. cbn [bind]. auto.
Qed.
Print Assumptions C30_recycles.

(** A request fails only if its size is zero, if the application disabled
    the underlying malloc, or if the underlying malloc fails. *)
Theorem C30_succeeds : forall sizes m h s live n b c,
  pool_ok sizes -> history sizes (init sizes m) h s live -> 0 < n < LIMIT -> fail s = false ->
  possible (heap s) b (class sizes n + 8) = true ->
  exists s' r, step sizes s (Malloc n (Some (b, c))) = Some (s', r) /\ r <> 0.
Proof.
  intros sizes m h s live n b c P H N F Q. apply pool_sizes_ok in P as SO.
  destruct (history_inv sizes SO m h s live H) as (frees & I). exact (malloc_succeeds sizes s live frees n b c SO I N F Q).
Qed.
Print Assumptions C30_succeeds.

(** Nothing is lost: after any history, finalizing the pool leaves allocated
    exactly the blocks of the buffers the application still has. *)
Theorem C30_no_leak : forall sizes m h s live,
  pool_ok sizes -> history sizes (init sizes m) h s live ->
  exists s', step sizes s Fini = Some (s', 0) /\ Permutation (heap s') (in_use sizes live).
Proof.
  intros sizes m h s live P H. apply pool_sizes_ok in P as SO. destruct (history_inv sizes SO m h s live H) as (frees & I).
  destruct (fini_ok sizes SO s live frees I) as (s' & frees' & E & _ & _ & Q). exists s'. cbn [step]. rewrite E. auto.
Qed.
Print Assumptions C30_no_leak.

(** The log reports the octets that are allocated but not in use. *)
Theorem C30_log : forall sizes m h s live,
  pool_ok sizes -> history sizes (init sizes m) h s live ->
  step sizes s Log = Some (s, u64 (total (heap s) - total (in_use sizes live))).
Proof.
  intros sizes m h s live P H. apply pool_sizes_ok in P as SO. destruct (history_inv sizes SO m h s live H) as (frees & I).
  cbn [step]. rewrite (log_ok sizes SO s live frees I). reflexivity.
Qed.
Print Assumptions C30_log.

(** Preallocation adds at most the blocks asked for, all of the size class, to
    the heap, gives none to the application, and returns their octets; if the
    size is pooled it adds fewer only if the underlying malloc refuses one. *)
Theorem C30_prealloc : forall sizes m h s live k n a,
  pool_ok sizes -> history sizes (init sizes m) h s live -> 0 <= n < LIMIT ->
  exists s' r j, step sizes s (Prealloc k n a) = Some (s', r) /\ (j <= k)%nat /\
    total (heap s') = total (heap s) + Z.of_nat j * (class sizes n + 8) /\ r = u64 (Z.of_nat j * (class sizes n + 8)) /\
    (In (class sizes n) sizes -> 0 < n -> j = k \/ refused s' (a j) (class sizes n + 8)).
Proof.
  intros sizes m h s live k n a P H N. apply pool_sizes_ok in P as SO. destruct (history_inv sizes SO m h s live H) as (frees & I).
  destruct (prealloc_ok sizes SO s live frees k n a I N) as (s' & r & frees' & j & E & _ & _ & J & T & R & RR).
  exists s', r, j. auto.
Qed.
Print Assumptions C30_prealloc.

(** calloc gives zeroed octets. *)
Theorem C30_calloc : forall sizes m h s live k n a s' r,
  pool_ok sizes -> history sizes (init sizes m) h s live -> permitted live (Calloc k n a) ->
  step sizes s (Calloc k n a) = Some (s', r) -> r <> 0 -> forall i, 0 <= i < k * n -> mem s' (r + i) = 0.
Proof.
  intros sizes m h s live k n a s' r P H Q E R. apply pool_sizes_ok in P as SO.
  destruct (history_inv sizes SO m h s live H) as (frees & I).
  destruct (calloc_ok sizes SO s live frees k n a I Q) as (s1 & r1 & E1 & _ & M). cbn [step] in E. rewrite E in E1.
  injection E1 as <- <-. exact (M R).
Qed.
Print Assumptions C30_calloc.

(** strdup gives the string, and strndup the string cut to the given length,
    both followed by a NUL. *)
Theorem C30_strings : forall sizes m h s live l n a,
  pool_ok sizes -> history sizes (init sizes m) h s live ->
  (permitted live (Strdup l a) -> forall s' r, step sizes s (Strdup l a) = Some (s', r) -> r <> 0 -> contains s' r (l ++ [0])) /\
  (permitted live (Strndup l n a) -> forall s' r, step sizes s (Strndup l n a) = Some (s', r) -> r <> 0 ->
     contains s' r (firstn n l ++ [0])).
Proof.
  intros sizes m h s live l n a P H. apply pool_sizes_ok in P as SO.
  destruct (history_inv sizes SO m h s live H) as (frees & I). split; intros Q s' r E R; cbn [step] in E.
  - destruct (strdup_ok sizes SO s live frees l a I Q) as (s1 & r1 & E1 & _ & M). rewrite E in E1. injection E1 as <- <-. exact (M R).
  - destruct (strndup_ok sizes SO s live frees l n a I Q) as (s1 & r1 & E1 & _ & M). rewrite E in E1. injection E1 as <- <-. exact (M R).
Qed.
Print Assumptions C30_strings.

(** The multiplication in calloc is not checked: a request for 2^61 + 1 elements
    of eight octets succeeds with a buffer of eight octets. *)
Theorem C30_calloc_refuted : exists s' r,
  step POOL (init POOL (fun _ => 0)) (Calloc (2 ^ 61 + 1) 8 (SAY 1000)) = Some (s', r) /\ r <> 0 /\
  ~ allocated s' r 9.
Proof.
  eexists. eexists. split; [apply split_step; vm_compute; reflexivity|]. split; [discriminate|].
  intros (b & z & I & H). assert (L : [(b, z)] = [(1000, 16)]) by (vm_compute in I; destruct I as [E|[]]; rewrite E; reflexivity).
  injection L as -> ->. lia.
Qed.
Print Assumptions C30_calloc_refuted.

(** Neither is the addition of the header: a request for 2^64 - 1 octets
    allocates seven and writes the header beyond them. *)
Theorem C30_overflow_refuted :
  step POOL (init POOL (fun _ => 0)) (Malloc (2 ^ 64 - 1) (SAY 1000)) = None.
Proof. vm_compute. reflexivity. Qed.
Print Assumptions C30_overflow_refuted.

(** realloc, when it succeeds, preserves the octets common to the old and the new
    size; and it keeps the buffer where it is if the size class is the same. *)
Theorem C31_realloc : forall sizes m h s live p k n a s' r,
  pool_ok sizes -> history sizes (init sizes m) h s live -> In (p, k) live -> 0 <= n < LIMIT ->
  step sizes s (Realloc p n a) = Some (s', r) ->
  (r <> 0 -> forall i, 0 <= i < Z.min k n -> mem s' (r + i) = mem s (p + i)) /\
  (0 < n -> class sizes k = class sizes n -> r = p).
Proof.
  intros sizes m h s live p k n a s' r P H J N E. apply pool_sizes_ok in P as SO.
  destruct (history_inv sizes SO m h s live H) as (frees & I).
  assert (Q : permitted live (Realloc p n a)) by (split; eauto).
  destruct (realloc_ok sizes SO s live frees p n a I Q) as (s1 & r1 & E1 & _ & M & C). cbn [step] in E. rewrite E in E1.
  injection E1 as <- <-. split; [exact (M k J)|exact (C k J)].
Qed.
Print Assumptions C31_realloc.

Example C31_realloc_example : exists s h s' ,
  history POOL (init POOL (fun _ => 0)) h s [(1008, 3)] /\
  step POOL s (Realloc 1008 100 (SAY 2000)) = Some (s', 2008) /\
  map (mem s) [1008; 1009; 1010] = [7; 8; 9] /\ map (mem s') [2008; 2009; 2010] = [7; 8; 9].
Proof.
  pose proof (H_init POOL (init POOL (fun _ => 0))) as H.
  call H (Malloc 3 (SAY 1000)); [cbn; unfold LIMIT; lia|].
  call H (Store 1008 0 7); [exists 3; split; [left; reflexivity|lia]|].
  call H (Store 1008 1 8); [exists 3; split; [left; reflexivity|lia]|].
  call H (Store 1008 2 9); [exists 3; split; [left; reflexivity|lia]|].
  eexists. eexists. eexists. split; [exact H|]. split; [apply split_step; vm_compute; reflexivity|]. split; vm_compute; reflexivity.
Qed.

(** But unlike realloc(3), when it fails it does not leave the old buffer alone:
    it frees it, and the next request of that size class gets it. *)
Theorem C31_failure_refuted : exists h s live p k n s1 s2,
  history POOL (init POOL (fun _ => 0)) h s live /\ In (p, k) live /\ 0 < n < LIMIT /\
  step POOL s (Realloc p n None) = Some (s1, 0) /\ step POOL s1 (Malloc k None) = Some (s2, p).
Proof.
  pose proof (H_init POOL (init POOL (fun _ => 0))) as H.
  call H (Malloc 3 (SAY 1000)); [cbn; unfold LIMIT; lia|].
  do 3 eexists. exists 1008, 3, 100. eexists. eexists.
  split; [exact H|]. split; [left; reflexivity|]. split; [unfold LIMIT; lia|]. split; apply split_step; vm_compute; reflexivity.
Qed.
Print Assumptions C31_failure_refuted.

(** What does hold: a failed realloc changes no other buffer, and the pool stays
    sound, only that the application no longer has the old buffer (the hypotheses
    of the other theorems hold for the continued history without it). *)
Theorem C31_failure : forall sizes m h s live p k n a s',
  pool_ok sizes -> history sizes (init sizes m) h s live -> In (p, k) live -> 0 <= n < LIMIT ->
  step sizes s (Realloc p n a) = Some (s', 0) ->
  history sizes (init sizes m) (h ++ [(Realloc p n a, 0)]) s' (forget live p) /\
  forall q j i, In (q, j) live -> q <> p -> 0 <= i < j -> mem s' (q + i) = mem s (q + i).
Proof.
  intros sizes m h s live p k n a s' P H J N E. assert (Q : permitted live (Realloc p n a)) by (split; eauto).
  split; [exact (H_step sizes (init sizes m) h s live _ s' 0 H Q E)|].
  destruct (C30_defined sizes m h s live _ P H Q) as (s1 & r1 & E1 & F). rewrite E in E1. injection E1 as <- <-. exact F.
Qed.
Print Assumptions C31_failure.

(** While the underlying malloc is disabled, malloc, calloc and the copies of
    strings do not grow the heap; they succeed only by recycling. *)
Theorem C30_nomalloc : forall sizes m h s live,
  pool_ok sizes -> history sizes (init sizes m) h s live ->
  exists s1 r1, step sizes s (Nomalloc true) = Some (s1, r1) /\ heap s1 = heap s /\
  forall n a s2 r2, step sizes s1 (Malloc n a) = Some (s2, r2) ->
    heap s2 = heap s /\ (step sizes s2 (Nomalloc false) = Some (St (mem s2) (heap s2) (heads s2) false, 1)).
Proof.
  intros sizes m h s live P H. cbn [step]. eexists. eexists. split; [reflexivity|]. split; [reflexivity|].
  intros n a s2 r2 E. apply nomalloc_heap in E as (E1 & E2); [|reflexivity]. rewrite E2. auto.
Qed.
Print Assumptions C30_nomalloc.
