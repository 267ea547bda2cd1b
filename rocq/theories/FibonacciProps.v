(** Property C26. *)

From Coq Require Import ZArith List Bool Lia.
From Verif Require Import CInt FibonacciModel FibonacciSpec FibonacciProofs.
Import ListNotations.
Local Open Scope Z_scope.

(** Initialised with a, b (0 <= a <= b) and a limit of at least b: the n-th value
    is the n-th element of the Fibonacci sequence that starts with a, b, as long
    as that is below the limit. *)
Theorem C26_fibonacci : forall a b limit n,
  0 <= a <= b -> b <= limit < 4294967296 ->
  (n <= 1)%nat \/ fibs a b n < limit -> value (init a b limit) n = fibs a b n.
Proof.
  intros a b limit n H1 H2 H3. apply (value_exact (init a b limit)); [|exact H3].
  unfold fok. cbn. lia.
Qed.
Print Assumptions C26_fibonacci.

(** When the next element would reach the limit the value stays the same for
    ever. *)
Theorem C26_saturates : forall a b limit k n,
  0 <= a <= b -> b <= limit < 4294967296 ->
  (1 <= k)%nat -> (k <= 1)%nat \/ fibs a b k < limit -> limit <= fibs a b (S k) -> (k <= n)%nat ->
  value (init a b limit) n = fibs a b k.
Proof.
  intros a b limit k n H1 H2 H3 H4 H5 H6. apply (value_stuck (init a b limit)); auto.
  unfold fok. cbn. lia.
Qed.
Print Assumptions C26_saturates.

(** Values never decrease and never exceed the limit. *)
Theorem C26_monotone_bounded : forall a b limit n,
  0 <= a <= b -> b <= limit < 4294967296 ->
  0 <= value (init a b limit) n <= value (init a b limit) (S n) /\ value (init a b limit) n <= limit.
Proof.
  intros a b limit n H1 H2. apply (value_bounds (init a b limit)). unfold fok. cbn. lia.
Qed.
Print Assumptions C26_monotone_bounded.

(** Setting the limit changes only the limit, and returns the previous one. *)
Theorem C26_set_limit : forall s limit limit',
  let '(s1, old) := set_limit s limit in let '(s2, old') := set_limit s1 limit' in
  old = xm s /\ old' = limit /\ xm s2 = limit' /\ x0 s2 = x0 s /\ x1 s2 = x1 s.
Proof. intros. cbn. auto. Qed.
Print Assumptions C26_set_limit.

(** Also when the limit is raised from time to time. *)
Theorem C26_raised_limits : forall a b limit ops,
  0 <= a <= b -> b <= limit < 4294967296 -> raised limit ops ->
  nondecreasing a (history (init a b limit) ops) /\
  Forall (fun v => v <= last_limit limit ops) (history (init a b limit) ops).
Proof.
  intros a b limit ops H1 H2 R. apply (history_ok ops (init a b limit)); [|exact R]. unfold fok. cbn. lia.
Qed.
Print Assumptions C26_raised_limits.

Example C26_raised_example :
  raised 10 [Next; Next; SetLimit 12; Next] /\
  history (init 1 1 2) [Next; Next; Next; Next; SetLimit 9; Next; Next; Next; Next; Next] =
  [1; 1; 1; 1; 1; 1; 2; 3; 5].
Proof. cbn. repeat split; lia. Qed.

(** The three named initialisers satisfy the hypotheses. *)
Example C26_classic : map (value init_classic) (seq 0 10) = [1; 1; 2; 3; 5; 8; 13; 21; 34; 55].
Proof. vm_compute. reflexivity. Qed.
Example C26_modern_top : map (value init_modern) [0; 1; 46; 47; 48; 60]%nat =
  [0; 1; 1836311903; 2971215073; 2971215073; 2971215073].
Proof. vm_compute. reflexivity. Qed.
Example C26_advanced : map (value init_advanced) (seq 0 6) = [1; 2; 3; 5; 8; 13].
Proof. vm_compute. reflexivity. Qed.
Example C26_limited : map (value (fst (set_limit init_classic 10))) (seq 0 9) = [1; 1; 2; 3; 5; 8; 8; 8; 8].
Proof. vm_compute. reflexivity. Qed.

(** A limit that is itself in the sequence is not reached: values up to and
    including the limit would be allowed, but the last one is left out. *)
Theorem C26_inclusive_limit_refuted :
  fibs 1 1 5 = 8 /\ forall n, value (init 1 1 8) n < 8.
Proof.
  split; [reflexivity|]. intros n. destruct (Nat.le_gt_cases 4 n) as [L|L].
  - rewrite (C26_saturates 1 1 8 4 n); cbn; try lia.
  - do 4 (destruct n as [|n]; [vm_compute; reflexivity|]). lia.
Qed.
Print Assumptions C26_inclusive_limit_refuted.

(** Lowering the limit below the current value makes the unsigned subtraction
    wrap: the values then ignore the limit and grow up to the largest Fibonacci
    number of 32 bits. *)
Theorem C26_lowered_limit_refuted :
  exists s, s = fst (set_limit (after init_classic 10) 5) /\ xm s = 5 /\
    value s 0 = 89 /\ value s 36 = 2971215073.
Proof. eexists. split; [reflexivity|]. split; [reflexivity|]. split; vm_compute; reflexivity. Qed.
Print Assumptions C26_lowered_limit_refuted.
