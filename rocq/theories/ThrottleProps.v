(** Properties C18, C19 and C48. *)

From Coq Require Import ZArith List Bool Lia.
From Verif Require Import CInt CUtil ThrottleModel ThrottleSpec ThrottleProofs.
Import ListNotations.
Local Open Scope Z_scope.

(** Whatever a client attempts and whenever: of two emissions at times t1 and tj, the
    events emitted from t1 on and before those at tj, each taking one increment, are
    bounded by the time between them plus the limit. *)
Theorem C18_window : forall increment limit start attempts pre t1 n1 mid tj nj post,
  0 <= increment -> 0 <= limit -> clock start attempts -> within start attempts -> sizes increment limit attempts ->
  client (init increment limit (u64 start)) attempts = pre ++ (t1, n1) :: mid ++ (tj, nj) :: post ->
  (n1 + total mid) * increment <= (tj - t1) + limit.
Proof. exact clients_bound. Qed.
Print Assumptions C18_window.

(** In terms of the contract: a client that emits single events through a throttle set
    up with [num] events per [den] seconds and a burst of [b] emits in any window of
    time at most [b] events plus [num]/[den] times the length of the window. *)
Theorem C18_rate : forall num den freq b start attempts pre t1 mid tj post,
  1 <= num -> 1 <= den -> 0 < freq -> freq * den < 2 ^ 64 -> 1 <= b -> b < 2 ^ 64 ->
  b * interarrivaltime num den freq < 2 ^ 64 ->
  clock start attempts -> within start attempts -> Forall (fun a => snd a = 1) attempts ->
  client (init (interarrivaltime num den freq) (jittertolerance (interarrivaltime num den freq) b) (u64 start)) attempts =
    pre ++ (t1, 1) :: mid ++ (tj, 1) :: post ->
  (2 + Z.of_nat (length mid) - b) * (freq * den) <= num * (tj - t1).
Proof. exact rate_bound. Qed.
Print Assumptions C18_rate.

(** The interarrival time is the number of ticks per event, rounded up. *)
Theorem C18_interarrivaltime : forall num den freq, 1 <= num -> 1 <= den -> 0 < freq -> freq * den < 2 ^ 64 ->
  let inc := interarrivaltime num den freq in (inc - 1) * num < freq * den <= inc * num /\ 0 < inc < 2 ^ 64.
Proof. exact interarrival_spec. Qed.
Print Assumptions C18_interarrivaltime.

(** A shaper enforces both of its contracts. *)
Theorem C18_shaper : forall pi pl si sl start attempts pre t1 n1 mid tj nj post,
  0 <= pi -> 0 <= pl -> 0 <= si -> 0 <= sl -> clock start attempts -> within start attempts ->
  sizes pi pl attempts -> sizes si sl attempts ->
  shaper_client (shaper_init pi pl si sl (u64 start)) attempts = pre ++ (t1, n1) :: mid ++ (tj, nj) :: post ->
  (n1 + total mid) * pi <= (tj - t1) + pl /\ (n1 + total mid) * si <= (tj - t1) + sl.
Proof.
  intros pi pl si sl start attempts pre t1 n1 mid tj nj post H1 H2 H3 H4 C W Z1 Z2 E.
  destruct (shaper_conforms pi pl si sl H1 H2 H3 H4 attempts (shaper_init pi pl si sl (u64 start)) start 0 0 start start) as (A & B);
    [apply rep_init|apply rep_init|lia|exact C|exact W|exact Z1|exact Z2|].
  rewrite E in A, B. split; eapply conform_bound; eauto.
Qed.
Print Assumptions C18_shaper.

(** A client that tries every 30 ticks to emit, with an increment of 100 and a limit
    of 100: two at once, then one every 100 ticks or a bit more. *)
Example C18_example :
  client (init 100 100 0) [(0, 1); (0, 1); (0, 1); (30, 1); (60, 1); (90, 1); (120, 1); (150, 1); (180, 1); (210, 1)] =
    [(0, 1); (0, 1); (120, 1); (210, 1)] /\
  interarrivaltime 3 1 1000 = 334 /\ jittertolerance 334 3 = 668 /\
  client (init 334 668 0) (map (fun i => (Z.of_nat i * 100, 1)) (seq 0 13)) =
    [(0, 1); (100, 1); (200, 1); (400, 1); (700, 1); (1100, 1)] /\
  shaper_client (shaper_init 10 0 100 180 0) (map (fun i => (Z.of_nat i * 5, 1)) (seq 0 30)) =
    [(0, 1); (10, 1); (20, 1); (120, 1)].
Proof. vm_compute. auto. Qed.

(** The delay a request returns after any history of calls is what is in the bucket
    beyond the limit, is at most what was expected to be in it, and is exactly as long
    as the client has to wait until the request is granted. *)
Theorem C19_delay : forall increment limit start l t x,
  0 <= increment -> 0 <= limit -> possible start increment 0 start l -> 0 <= x ->
  let '(level, t0) := bucket increment 0 start l in
  t0 <= t -> t + x < start + 2 ^ 64 ->
  let s := history (init increment limit (u64 start)) l in
  let '(s', delay) := request s (u64 t) in
  delay = Z.max 0 (leak level t0 t - limit) /\ delay <= expected s /\
  (snd (request s' (u64 (t + x))) = 0 <-> delay <= x).
Proof.
  intros increment limit start l t x Hi Hl P Hx.
  destruct (history_rep increment limit Hi Hl l (init increment limit (u64 start)) start 0 start (rep_init _ _ _ _) ltac:(lia) P) as (R & T).
  destruct (bucket increment 0 start l) as (level, t0). cbn [fst snd] in *. intros Ht Hw. cbv zeta.
  apply (delay_exact _ increment limit level t0 t x R Hl Ht Hx). lia.
Qed.
Print Assumptions C19_delay.

(** The shaper's delay is the longer of the two. *)
Theorem C19_shaper : forall s now,
  snd (shaper_request s now) = Z.max (snd (request (peak s) now)) (snd (request (sustained s) now)) /\
  peak (fst (shaper_request s now)) = fst (request (peak s) now) /\
  sustained (fst (shaper_request s now)) = fst (request (sustained s) now).
Proof.
  intros s now. unfold shaper_request. destruct (request (peak s) now) as (p, dp). destruct (request (sustained s) now) as (q, dq).
  cbn [fst snd peak sustained]. rewrite Z.gtb_ltb. split; [destruct (Z.ltb_spec dq dp); lia|auto].
Qed.
Print Assumptions C19_shaper.

Example C19_example :
  let l := [(10, Some 1); (20, Some 2); (25, None); (30, Some 1)] in
  possible 0 100 0 0 l /\ bucket 100 0 0 l = (380, 30) /\
  snd (request (history (init 100 50 0) l) 40) = 320 /\
  snd (request (history (init 100 50 0) l) 359) = 1 /\ snd (request (history (init 100 50 0) l) 360) = 0.
Proof. cbn [possible]. unfold leak. vm_compute. intuition congruence. Qed.

(** The bucket a throttle stands for, and its flags, after any history of calls,
    conforming or not: empty and full tell what the last committed events found, and
    the alarm is raised by events that find the bucket over the limit and cleared by
    events that find it empty. *)
Theorem C48_alarm : forall increment limit start l,
  0 <= increment -> 0 <= limit -> possible start increment 0 start l ->
  let s := history (init increment limit (u64 start)) l in
  let found := arrivals increment 0 start l in
  expected s = fst (bucket increment 0 start l) /\
  isempty s = (last found 0 =? 0) /\ isfull s = (last found 0 >? limit) /\
  isalarmed s = fold_left (alarm limit) found false.
Proof.
  intros increment limit start l Hi Hl P. cbv zeta.
  destruct (history_rep increment limit Hi Hl l (init increment limit (u64 start)) start 0 start (rep_init _ _ _ _) ltac:(lia) P) as ((_ & _ & E & _) & _).
  destruct (history_flags increment limit Hi Hl l (init increment limit (u64 start)) start 0 start 0 false (rep_init _ _ _ _) ltac:(lia) P) as (A & B & C & _).
  - unfold flags, init, reset. cbn. rewrite Z.gtb_ltb. destruct (Z.ltb_spec limit 0); [lia|]. repeat split; lia.
  - lia.
  - split; [exact E|]. split; [exact A|]. split; [exact B|exact C].
Qed.
Print Assumptions C48_alarm.

Example C48_example :
  let l := [(0, Some 1); (10, Some 1); (20, Some 1); (150, Some 1); (600, Some 1)] in
  possible 0 100 0 0 l /\ arrivals 100 0 0 l = [0; 90; 180; 150; 0] /\
  map (fun n => isalarmed (history (init 100 100 0) (firstn n l))) [1; 2; 3; 4; 5]%nat = [false; false; true; true; false] /\
  isfull (history (init 100 160 0) (firstn 4 l)) = false /\ isalarmed (history (init 100 160 0) (firstn 4 l)) = true.
Proof. cbn [possible]. unfold leak. vm_compute. intuition congruence. Qed.
Example C18_hypotheses : let l := [(0, 1); (0, 1); (0, 1); (30, 1); (60, 1); (90, 1)] in
  clock 0 l /\ within 0 l /\ sizes 100 100 l.
Proof. cbn [clock]. unfold within, sizes. split; [lia|]. split; repeat (apply Forall_cons; [cbn; lia|]); apply Forall_nil. Qed.

(** The burst tolerance means what it says: a shaper that is idle admits a burst of the
    given size at the peak rate at once and, if the jitter tolerance is smaller than
    the difference of the increments, not one event more. *)
Theorem C18_burst : forall pi pl si b start size, 0 <= pi < si -> 0 <= pl -> 1 <= b ->
  (b - 1) * (si - pi) + pl + si < 2 ^ 64 -> b < 2 ^ 64 -> Z.of_nat size = b ->
  bursttolerance pi pl si b = (b - 1) * (si - pi) + pl /\
  (shaper_client (shaper_init pi pl si (bursttolerance pi pl si b) (u64 start)) (burst start pi size) = burst start pi size) /\
  (pl < si - pi ->
   shaper_client (shaper_init pi pl si (bursttolerance pi pl si b) (u64 start)) (burst start pi (S size)) =
   burst start pi size).
Proof.
  intros pi pl si b start size H1 H2 H3 H4 H5 H6.
  destruct (burst_spec pi pl si b start size H1 H2 H3 H4 H5 H6) as (F & A & B). split; [exact F|]. split; [|exact B].
  destruct (A []) as (s' & E). rewrite app_nil_r in E. rewrite E. apply app_nil_r.
Qed.
Print Assumptions C18_burst.

Example C18_burst_example : bursttolerance 10 5 100 4 = 275 /\
  shaper_client (shaper_init 10 5 100 275 7) (burst 7 10 6) = [(7, 1); (17, 1); (27, 1); (37, 1)].
Proof. vm_compute. auto. Qed.

(** A shaper is two throttles that admit the same events, and is alarmed if one of
    them is. *)
Theorem C48_shaper : forall l s, peak (shaper_history s l) = history (peak s) (committed l) /\
  sustained (shaper_history s l) = history (sustained s) (committed l) /\
  forall t n, snd (shaper_admitn s t n) =
    isalarmed (peak (fst (shaper_admitn s t n))) || isalarmed (sustained (fst (shaper_admitn s t n))).
Proof.
  induction l as [|(t, n) l IH]; intros s; [repeat split|].
  cbn [shaper_history committed map fst snd history]. destruct (IH (fst (shaper_admitn s (u64 t) n))) as (A & B & _).
  split; [exact A|]. split; [exact B|]. intros t' n'. reflexivity.
Qed.
Print Assumptions C48_shaper.
