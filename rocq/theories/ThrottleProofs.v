From Coq Require Import ZArith List Bool Lia.
From Verif Require Import CInt CUtil ThrottleModel ThrottleSpec.
Import ListNotations.
Local Open Scope Z_scope.

(** The throttle is a bucket that had [level] at time [t0]. *)
Definition rep (s : throttle) (inc lim level t0 : Z) : Prop :=
  increment s = inc /\ limit s = lim /\ expected s = level /\ 0 <= level < 2 ^ 64 /\ (level = 0 \/ then_ s = u64 t0).

Lemma u64_sub a b : u64 (u64 a - u64 b) = u64 (a - b).
Proof. unfold u64. rewrite Zminus_mod_idemp_l, Zminus_mod_idemp_r. reflexivity. Qed.
Lemma u64_small x : 0 <= x < 2 ^ 64 -> u64 x = x.
Proof. intros H. unfold u64. apply Z.mod_small. exact H. Qed.
Lemma u64_range x : 0 <= u64 x < 2 ^ 64.
Proof. unfold u64. apply Z.mod_pos_bound. reflexivity. Qed.

Lemma rep_init inc lim start t0 : rep (init inc lim start) inc lim 0 t0.
Proof. unfold rep, init, reset. cbn. repeat split; lia. Qed.

Lemma request_spec s inc lim level t0 t : rep s inc lim level t0 -> 0 <= lim -> t0 <= t < t0 + 2 ^ 64 ->
  let '(s', d) := request s (u64 t) in
  rep s' inc lim level t0 /\ actual s' = leak level t0 t /\ now_ s' = u64 t /\
  d = Z.max 0 (leak level t0 t - lim) /\
  full0 s' = (leak level t0 t >? lim) /\ empty0 s' = (leak level t0 t =? 0) /\
  full1 s' = full1 s /\ full2 s' = full2 s /\ empty1 s' = empty1 s /\ empty2 s' = empty2 s /\
  alarmed1 s' = alarmed1 s /\ alarmed2 s' = alarmed2 s.
Proof.
  intros (Hi & Hl & He & Hr & Ht) Hlim Hc. unfold request. set (elapsed := u64 (u64 t - then_ s)).
  assert (El : level = 0 \/ elapsed = t - t0).
  { destruct Ht as [->|Ht]; [left; reflexivity|right]. unfold elapsed. rewrite Ht, u64_sub. apply u64_small. lia. }
  assert (Er : 0 <= elapsed < 2 ^ 64) by apply u64_range. clearbody elapsed.
  rewrite He, Hl, Hi. unfold leak. rewrite !Z.gtb_ltb.
  destruct (Z.leb_spec level elapsed) as [L|L].
  - assert (Z0 : Z.max 0 (level - (t - t0)) = 0) by lia. rewrite Z0. cbn.
    repeat split; try assumption; try lia; try (destruct (Z.ltb_spec lim 0); [lia|reflexivity]).
  - destruct El as [El|El]; [lia|]. rewrite El in *.
    assert (Z0 : Z.max 0 (level - (t - t0)) = level - (t - t0)) by lia. rewrite Z0. rewrite (u64_small (level - (t - t0))) by lia.
    destruct (Z.eqb_spec (level - (t - t0)) 0); [lia|].
    destruct (Z.leb_spec (level - (t - t0)) lim) as [M|M]; cbn [increment limit expected actual now_ then_ full0 full1 full2 empty0 empty1 empty2 alarmed1 alarmed2 rep].
    + unfold rep. cbn. destruct (Z.ltb_spec lim (level - (t - t0))); [lia|]. repeat split; try assumption; lia.
    + unfold rep. cbn. destruct (Z.ltb_spec lim (level - (t - t0))); [|lia]. rewrite (u64_small (level - (t - t0) - lim)) by lia.
      repeat split; try assumption; lia.
Qed.

Lemma commit_spec s inc lim level t0 t n : rep s inc lim level t0 -> 0 <= n -> 0 <= inc ->
  now_ s = u64 t -> actual s = leak level t0 t -> leak level t0 t + n * inc < 2 ^ 64 ->
  rep (commitn s n) inc lim (leak level t0 t + n * inc) t.
Proof.
  intros (Hi & Hl & He & Hr & Ht) Hn Hinc Hw Ha Hb. unfold rep, commitn. cbn [increment limit expected then_].
  assert (0 <= leak level t0 t) by (unfold leak; lia). assert (0 <= n * inc) by nia.
  rewrite Hi, Hl, Ha, Hw. rewrite (u64_small (n * inc)) by lia. rewrite u64_small by lia. repeat split; try lia.
Qed.

Lemma request_state s inc lim level t0 t s' d : rep s inc lim level t0 -> 0 <= lim -> t0 <= t < t0 + 2 ^ 64 ->
  request s (u64 t) = (s', d) ->
  rep s' inc lim level t0 /\ actual s' = leak level t0 t /\ now_ s' = u64 t /\ d = Z.max 0 (leak level t0 t - lim).
Proof. intros R L C E. pose proof (request_spec s inc lim level t0 t R L C) as H. rewrite E in H. tauto. Qed.

(** Conforming emissions. *)
Fixpoint conform (inc lim level t0 : Z) (l : list (Z * Z)) : Prop :=
  match l with
  | [] => True
  | (t, n) :: rest => t0 <= t /\ 0 <= n /\ leak level t0 t <= lim /\ conform inc lim (leak level t0 t + n * inc) t rest
  end.

Lemma clock_weaken start start' l : start' <= start -> clock start l -> clock start' l.
Proof. destruct l as [|(t, n) l]; cbn; [auto|]. intros H (A & B). split; [lia|exact B]. Qed.
Lemma conform_time inc lim level t0 t0' l : (level = 0 \/ t0' = t0) -> t0' <= t0 -> conform inc lim level t0 l -> conform inc lim level t0' l.
Proof.
  destruct l as [|(t, n) l]; [reflexivity|]. cbn [conform]. intros D H (A & B & C & E).
  assert (Q : leak level t0' t = leak level t0 t) by (unfold leak; destruct D; subst; lia). rewrite Q. repeat split; try assumption. lia.
Qed.

Lemma client_conforms inc lim : 0 <= inc -> 0 <= lim -> forall l s start level t0 now,
  rep s inc lim level t0 -> start <= t0 <= now -> clock now l -> within start l -> sizes inc lim l ->
  conform inc lim level t0 (client s l).
Proof.
  intros Hi Hl. induction l as [|(t, n) l IH]; intros s start level t0 now R Ho C W Sz; [exact I|].
  cbn [client clock] in *. apply Forall_inv in W as Wt. apply Forall_inv_tail in W. pose proof (Forall_inv Sz) as (Sn & Sb). apply Forall_inv_tail in Sz.
  cbn [fst snd] in *. destruct C as (C1 & C2).
  destruct (request s (u64 t)) as (s', d) eqn:E.
  destruct (request_state s inc lim level t0 t s' d R Hl ltac:(lia) E) as (R' & Ha & Hn & Hd).
  destruct (Z.eqb_spec d 0) as [D|D].
  - cbn [conform]. assert (leak level t0 t <= lim) by lia. split; [lia|]. split; [exact Sn|]. split; [assumption|].
    apply (IH _ start _ t t); [|lia|exact C2|exact W|exact Sz].
    apply commit_spec; try assumption. lia.
  - apply (IH s' start level t0 t R'); [lia|exact C2|exact W|exact Sz].
Qed.

Lemma conform_suffix inc lim : forall pre level t0 post, 0 <= inc -> 0 <= level -> conform inc lim level t0 (pre ++ post) ->
  exists level' t0', 0 <= level' /\ conform inc lim level' t0' post.
Proof.
  induction pre as [|(t, n) pre IH]; intros level t0 post Hi Hl C; [exists level, t0; auto|].
  cbn [app conform] in C. destruct C as (A & B & D & E). eapply IH; [exact Hi| |exact E]. unfold leak. nia.
Qed.

Lemma conform_window inc lim : forall mid level t0 tj nj post, 0 <= inc -> conform inc lim level t0 (mid ++ (tj, nj) :: post) ->
  level + total mid * inc <= (tj - t0) + lim.
Proof.
  induction mid as [|(t, n) mid IH]; intros level t0 tj nj post Hi C.
  - cbn [app conform] in C. unfold total. cbn. unfold leak in C. lia.
  - cbn [app conform] in C. destruct C as (A & B & D & E). apply IH in E; [|exact Hi].
    change (total ((t, n) :: mid)) with (n + total mid). unfold leak in E. nia.
Qed.

Lemma conform_bound inc lim pre t1 n1 mid tj nj post t0 : 0 <= inc ->
  conform inc lim 0 t0 (pre ++ (t1, n1) :: mid ++ (tj, nj) :: post) -> (n1 + total mid) * inc <= (tj - t1) + lim.
Proof.
  intros Hi C. apply conform_suffix in C as (level & t & Hl & C); [|exact Hi|lia]. cbn [conform] in C.
  destruct C as (A & B & D & E). apply conform_window in E; [|exact Hi]. unfold leak in E. nia.
Qed.

Lemma clients_bound inc lim start attempts pre t1 n1 mid tj nj post :
  0 <= inc -> 0 <= lim -> clock start attempts -> within start attempts -> sizes inc lim attempts ->
  client (init inc lim (u64 start)) attempts = pre ++ (t1, n1) :: mid ++ (tj, nj) :: post ->
  (n1 + total mid) * inc <= (tj - t1) + lim.
Proof.
  intros Hi Hl C W Sz E. eapply conform_bound; [exact Hi|]. rewrite <- E.
  eapply client_conforms; try eassumption; [apply rep_init|]. instantiate (1 := start). lia.
Qed.

(** The client always emits if it waits as long as told. *)
Lemma delay_exact s inc lim level t0 t x : rep s inc lim level t0 -> 0 <= lim -> t0 <= t -> 0 <= x -> t + x < t0 + 2 ^ 64 ->
  let '(s', d) := request s (u64 t) in
  d = Z.max 0 (leak level t0 t - lim) /\ d <= expected s /\ (snd (request s' (u64 (t + x))) = 0 <-> d <= x).
Proof.
  intros R Hl Ht Hx Hw. destruct (request s (u64 t)) as (s', d) eqn:E.
  destruct (request_state s inc lim level t0 t s' d R Hl ltac:(lia) E) as (R' & Ha & Hn & Hd).
  split; [exact Hd|]. destruct R as (_ & _ & He & Hr & _). split; [rewrite He, Hd; unfold leak; lia|].
  destruct (request s' (u64 (t + x))) as (s2, d2) eqn:E2. cbn [snd].
  destruct (request_state s' inc lim level t0 (t + x) s2 d2 R' Hl ltac:(lia) E2) as (_ & _ & _ & Hd2).
  subst. unfold leak. lia.
Qed.

(** Histories. *)
Lemma history_rep inc lim : 0 <= inc -> 0 <= lim -> forall l s start level t0,
  rep s inc lim level t0 -> start <= t0 -> possible start inc level t0 l ->
  rep (history s l) inc lim (fst (bucket inc level t0 l)) (snd (bucket inc level t0 l)) /\ t0 <= snd (bucket inc level t0 l).
Proof.
  intros Hi Hl. induction l as [|(t, [n|]) l IH]; intros s start level t0 R Ho P; cbn [history bucket possible] in *.
  - split; [exact R|cbn; lia].
  - destruct P as (P1 & P2 & P3 & P4). destruct (request s (u64 t)) as (s', d) eqn:E. cbn [fst].
    destruct (request_state s inc lim level t0 t s' d R Hl ltac:(lia) E) as (R' & Ha & Hn & Hd).
    destruct (IH (commitn s' n) start (leak level t0 t + n * inc) t) as (A & B); [apply commit_spec; assumption|lia|exact P4|].
    split; [exact A|lia].
  - destruct P as (P1 & P2). destruct (request s (u64 t)) as (s', d) eqn:E. cbn [fst].
    destruct (request_state s inc lim level t0 t s' d R Hl ltac:(lia) E) as (R' & Ha & Hn & Hd). apply (IH s' start); assumption.
Qed.

Definition flags (s : throttle) (lim : Z) (prev : Z) (a : bool) : Prop :=
  empty1 s = (prev =? 0) /\ full1 s = (prev >? lim) /\ alarmed1 s = a /\
  (prev = 0 -> a = false) /\ (lim < prev -> a = true).

Lemma last_cons {A} (x d : A) l : last (x :: l) d = last l x.
Proof.
  revert x d. induction l as [|y l IH]; intros x d; [reflexivity|].
  change (last (x :: y :: l) d) with (last (y :: l) d). rewrite (IH y d), (IH y x). reflexivity.
Qed.

Lemma history_flags inc lim : 0 <= inc -> 0 <= lim -> forall l s start level t0 prev a,
  rep s inc lim level t0 -> start <= t0 -> possible start inc level t0 l -> flags s lim prev a -> 0 <= prev ->
  let ls := arrivals inc level t0 l in
  flags (history s l) lim (last ls prev) (fold_left (alarm lim) ls a).
Proof.
  intros Hi Hl. induction l as [|(t, [n|]) l IH]; intros s start level t0 prev a R Ho P F Hp; cbn [history arrivals possible] in *.
  - exact F.
  - destruct P as (P1 & P2 & P3 & P4).
    pose proof (request_spec s inc lim level t0 t R Hl ltac:(lia)) as Q.
    destruct (request s (u64 t)) as (s', d). cbn [fst].
    destruct Q as (R' & Ha & Hn & Hd & F0 & E0 & F1 & F2 & E1 & E2 & A1 & A2).
    cbv zeta. rewrite last_cons. cbn [fold_left]. apply (IH _ start).
    + apply commit_spec; assumption.
    + lia.
    + exact P4.
    + assert (Lk : 0 <= leak level t0 t) by (unfold leak; lia).
      destruct F as (G1 & G2 & G3 & G4 & G5). unfold flags, commitn, emptied, filled, alarm. cbn.
      rewrite F0, E0, A1, E1, F1, G1, G2, G3. rewrite !Z.gtb_ltb.
      split; [reflexivity|]. split; [reflexivity|].
      destruct (Z.eqb_spec (leak level t0 t) 0) as [Z0|Z0]; cbn.
      * assert (X : (if negb (prev =? 0) then false else if (lim <? leak level t0 t) && negb (lim <? prev) then true else a) = false).
        { destruct (Z.eqb_spec prev 0); cbn; [|reflexivity]. destruct (Z.ltb_spec lim (leak level t0 t)); [lia|]. cbn. apply G4. assumption. }
        rewrite X. split; [reflexivity|]. split; [reflexivity|]. intros; lia.
      * destruct (Z.ltb_spec lim (leak level t0 t)); cbn.
        -- destruct (Z.ltb_spec lim prev); cbn; [rewrite (G5 H0)|]; split; try reflexivity; split; intros; try reflexivity; lia.
        -- split; [reflexivity|]. split; intros; lia.
    + unfold leak; lia.
  - destruct P as (P1 & P2). pose proof (request_spec s inc lim level t0 t R Hl ltac:(lia)) as Q.
    destruct (request s (u64 t)) as (s', d). cbn [fst].
    destruct Q as (R' & Ha & Hn & Hd & F0 & E0 & F1 & F2 & E1 & E2 & A1 & A2). apply (IH s' start level t0 prev a R' Ho P2); [|exact Hp].
    destruct F as (G1 & G2 & G3 & G4 & G5). unfold flags. rewrite E1, F1, A1. auto.
Qed.

(** The shaper. *)
Lemma shaper_conforms pi pl si sl : 0 <= pi -> 0 <= pl -> 0 <= si -> 0 <= sl -> forall l s start lp ls t0 now,
  rep (peak s) pi pl lp t0 -> rep (sustained s) si sl ls t0 -> start <= t0 <= now -> clock now l -> within start l ->
  sizes pi pl l -> sizes si sl l ->
  conform pi pl lp t0 (shaper_client s l) /\ conform si sl ls t0 (shaper_client s l).
Proof.
  intros Hpi Hpl Hsi Hsl. induction l as [|(t, n) l IH]; intros s start lp ls t0 now R1 R2 Ho C W Z1 Z2; [split; exact I|].
  cbn [shaper_client clock] in *. apply Forall_inv in W as Wt. apply Forall_inv_tail in W.
  pose proof (Forall_inv Z1) as (Sn & Sb). apply Forall_inv_tail in Z1. pose proof (Forall_inv Z2) as (Sn2 & Sb2). apply Forall_inv_tail in Z2.
  cbn [fst snd] in *. destruct C as (C1 & C2). unfold shaper_request.
  destruct (request (peak s) (u64 t)) as (p', dp) eqn:E1. destruct (request (sustained s) (u64 t)) as (q', dq) eqn:E2.
  destruct (request_state _ pi pl lp t0 t p' dp R1 Hpl ltac:(lia) E1) as (R1' & Ha & Hn & Hd).
  destruct (request_state _ si sl ls t0 t q' dq R2 Hsl ltac:(lia) E2) as (R2' & Ha2 & Hn2 & Hd2).
  rewrite Z.gtb_ltb. destruct (Z.eqb_spec (if dq <? dp then dp else dq) 0) as [D|D].
  - assert (dp = 0 /\ dq = 0) as (D1 & D2) by (destruct (Z.ltb_spec dq dp); lia).
    cbn [shaper_commitn fst conform]. unfold shaper_commitn. cbn [fst peak sustained].
    destruct (IH (Shaper (commitn p' n) (commitn q' n)) start (leak lp t0 t + n * pi) (leak ls t0 t + n * si) t t) as (I1 & I2); try assumption; cbn [peak sustained].
    + apply commit_spec; try assumption. lia.
    + apply commit_spec; try assumption. lia.
    + lia.
    + split; (split; [lia|]); (split; [assumption|]); (split; [lia|]); assumption.
  - apply (IH (Shaper p' q') start lp ls t0 t); cbn [peak sustained]; try assumption. lia.
Qed.

(** Parameters. *)
Lemma interarrival_spec num den freq : 1 <= num -> 1 <= den -> 0 < freq -> freq * den < 2 ^ 64 ->
  let inc := interarrivaltime num den freq in (inc - 1) * num < freq * den <= inc * num /\ 0 < inc < 2 ^ 64.
Proof.
  intros Hn Hd Hf Hb. unfold interarrivaltime. rewrite !Z.gtb_ltb.
  assert (E : (if 1 <? den then u64 (freq * den) else freq) = freq * den).
  { destruct (Z.ltb_spec 1 den); [apply u64_small; nia|]. assert (den = 1) by lia. subst. lia. }
  rewrite E. assert (P : 0 < freq * den) by nia. set (x := freq * den) in *. clearbody x. cbv zeta.
  destruct (Z.leb_spec num 1); [assert (num = 1) by lia; subst; lia|].
  pose proof (Z.div_mod x num ltac:(lia)) as D. pose proof (Z.mod_pos_bound x num ltac:(lia)) as M.
  assert (0 <= x / num) by (apply Z.div_pos; lia). assert (x / num < x) by (apply Z.div_lt; lia).
  destruct (Z.ltb_spec 0 (x mod num)).
  - rewrite u64_small by lia. nia.
  - assert (x mod num = 0) by lia. nia.
Qed.
Lemma jitter_spec inc b : 1 <= b -> 0 <= inc -> (b - 1) * inc < 2 ^ 64 -> b < 2 ^ 64 -> jittertolerance inc b = (b - 1) * inc.
Proof.
  intros Hb Hi Ho H. unfold jittertolerance. rewrite Z.gtb_ltb. destruct (Z.ltb_spec 1 b); [|assert (b = 1) by lia; subst; lia].
  rewrite (u64_small (b - 1)) by lia. rewrite u64_small; [reflexivity|]. nia.
Qed.

Lemma total_ones l : Forall (fun a => snd a = 1) l -> total l = Z.of_nat (length l).
Proof.
  induction l as [|(t, n) l IH]; intros H; [reflexivity|]. change (total ((t, n) :: l)) with (n + total l).
  apply Forall_inv in H as H1. apply Forall_inv_tail in H. rewrite IH by exact H. cbn [snd length] in *. lia.
Qed.
Lemma client_subset : forall l s, incl (client s l) l.
Proof.
  induction l as [|(t, n) l IH]; intros s x; cbn [client]; [tauto|].
  destruct (request s (u64 t)) as (s', d). destruct (d =? 0); cbn [In]; intros H.
  - destruct H as [H|H]; [left; exact H|right; eapply IH, H].
  - right. eapply IH, H.
Qed.

Lemma conform_times inc lim : forall mid level t0 tj nj post, conform inc lim level t0 (mid ++ (tj, nj) :: post) -> t0 <= tj.
Proof.
  induction mid as [|(t, n) mid IH]; intros level t0 tj nj post C; cbn [app conform] in C; [tauto|].
  destruct C as (A & _ & _ & C). apply IH in C. lia.
Qed.

Lemma rate_bound num den freq b start attempts pre t1 mid tj post :
  1 <= num -> 1 <= den -> 0 < freq -> freq * den < 2 ^ 64 -> 1 <= b -> b < 2 ^ 64 ->
  b * interarrivaltime num den freq < 2 ^ 64 ->
  clock start attempts -> within start attempts -> Forall (fun a => snd a = 1) attempts ->
  client (init (interarrivaltime num den freq) (jittertolerance (interarrivaltime num den freq) b) (u64 start)) attempts =
    pre ++ (t1, 1) :: mid ++ (tj, 1) :: post ->
  (2 + Z.of_nat (length mid) - b) * (freq * den) <= num * (tj - t1).
Proof.
  intros Hn Hd Hf Hfd Hb1 Hb2 Hbi C W O E.
  destruct (interarrival_spec num den freq Hn Hd Hf Hfd) as (I1 & I2). set (inc := interarrivaltime num den freq) in *.
  assert (J : jittertolerance inc b = (b - 1) * inc) by (apply jitter_spec; nia). rewrite J in E.
  assert (Sz : sizes inc ((b - 1) * inc) attempts).
  { unfold sizes. eapply Forall_impl; [|exact O]. intros (t, n) Hx. cbn [snd] in *. subst n. nia. }
  pose proof (clients_bound inc ((b - 1) * inc) start attempts pre t1 1 mid tj 1 post ltac:(lia) ltac:(nia) C W Sz E) as B.
  assert (Om : Forall (fun a => snd a = 1) mid).
  { apply Forall_forall. intros x Hx. rewrite Forall_forall in O. apply O. eapply client_subset. rewrite E.
    apply in_or_app. right. right. apply in_or_app. left. exact Hx. }
  rewrite (total_ones mid Om) in B. set (k := Z.of_nat (length mid)) in *.
  assert (X : (2 + k - b) * inc <= tj - t1) by nia.
  assert (Tm : 0 <= tj - t1).
  { assert (Cf : conform inc ((b - 1) * inc) 0 start (client (init inc ((b - 1) * inc) (u64 start)) attempts)).
    { apply (client_conforms inc ((b - 1) * inc) ltac:(lia) ltac:(nia) attempts _ start 0 start start); try assumption; [apply rep_init|lia]. }
    rewrite E in Cf. clear -Cf I2.
    apply conform_suffix in Cf as (level & t & Hl & Cf); [|lia|lia]. cbn [conform] in Cf. destruct Cf as (_ & _ & _ & Cf).
    apply conform_times in Cf. lia. }
  destruct (Z.le_ge_cases (2 + k - b) 0) as [Hk|Hk]; nia.
Qed.

(** Bursts at the peak rate. *)
Lemma burst_run pi pl si sl start : 0 <= pi < si -> 0 <= pl -> 0 <= sl -> forall k i s lp ls t0 rest,
  rep (peak s) pi pl lp t0 -> rep (sustained s) si sl ls t0 ->
  t0 <= start + Z.of_nat i * pi < t0 + 2 ^ 64 ->
  leak lp t0 (start + Z.of_nat i * pi) = 0 -> leak ls t0 (start + Z.of_nat i * pi) = Z.of_nat i * (si - pi) ->
  (k = 0%nat \/ (Z.of_nat i + Z.of_nat k - 1) * (si - pi) <= sl) -> sl + si < 2 ^ 64 -> pl + pi < 2 ^ 64 ->
  exists s' lp' ls' t0',
    shaper_client s (map (fun i => (start + Z.of_nat i * pi, 1)) (seq i k) ++ rest) =
      map (fun i => (start + Z.of_nat i * pi, 1)) (seq i k) ++ shaper_client s' rest /\
    rep (peak s') pi pl lp' t0' /\ rep (sustained s') si sl ls' t0' /\
    t0' <= start + Z.of_nat (i + k) * pi < t0' + 2 ^ 64 /\
    leak ls' t0' (start + Z.of_nat (i + k) * pi) = Z.of_nat (i + k) * (si - pi).
Proof.
  intros Hp Hpl Hsl. induction k as [|k IH]; intros i s lp ls t0 rest R1 R2 Ht L1 L2 B O1 O2.
  - exists s, lp, ls, t0. rewrite Nat.add_0_r. cbn [seq map app]. auto.
  - destruct B as [B|B]; [discriminate|]. cbn [seq map app shaper_client]. unfold shaper_request.
    set (t := start + Z.of_nat i * pi) in *.
    destruct (request (peak s) (u64 t)) as (p', dp) eqn:E1. destruct (request (sustained s) (u64 t)) as (q', dq) eqn:E2.
    destruct (request_state _ pi pl lp t0 t p' dp R1 Hpl ltac:(lia) E1) as (R1' & Ha & Hn & Hd).
    destruct (request_state _ si sl ls t0 t q' dq R2 Hsl ltac:(lia) E2) as (R2' & Ha2 & Hn2 & Hd2).
    assert (I0 : Z.of_nat i * (si - pi) <= sl) by nia.
    assert (D1 : dp = 0) by lia. assert (D2 : dq = 0) by lia. clear Hd Hd2. rewrite D1, D2. cbn [Z.gtb Z.compare Z.eqb]. unfold shaper_commitn. cbn [fst peak sustained].
    assert (T : start + Z.of_nat (S i) * pi = t + pi) by (unfold t; lia).
    destruct (IH (S i) (Shaper (commitn p' 1) (commitn q' 1)) (leak lp t0 t + 1 * pi) (leak ls t0 t + 1 * si) t rest) as (s' & lp' & ls' & t0' & X1 & X2 & X3 & X4 & X5).
    + cbn [peak]. apply commit_spec; try assumption; lia.
    + cbn [sustained]. apply commit_spec; try assumption; lia.
    + rewrite T. lia.
    + rewrite T, L1. unfold leak. lia.
    + rewrite T, L2. unfold leak. nia.
    + destruct k; [left; reflexivity|right]. nia.
    + exact O1.
    + exact O2.
    + exists s', lp', ls', t0'. replace (i + S k)%nat with (S i + k)%nat by lia.
      split; [|auto]. f_equal. exact X1.
Qed.

Lemma burst_spec pi pl si b start size : 0 <= pi < si -> 0 <= pl -> 1 <= b -> 
  (b - 1) * (si - pi) + pl + si < 2 ^ 64 -> b < 2 ^ 64 -> Z.of_nat size = b ->
  bursttolerance pi pl si b = (b - 1) * (si - pi) + pl /\
  (forall rest, exists s', shaper_client (shaper_init pi pl si (bursttolerance pi pl si b) (u64 start)) (burst start pi size ++ rest) =
     burst start pi size ++ shaper_client s' rest) /\
  (pl < si - pi -> shaper_client (shaper_init pi pl si (bursttolerance pi pl si b) (u64 start)) (burst start pi (S size)) = burst start pi size).
Proof.
  intros Hp Hl Hb Ho Hb2 Hs.
  assert (BT : bursttolerance pi pl si b = (b - 1) * (si - pi) + pl).
  { unfold bursttolerance. destruct (Z.leb_spec b 1).
    - assert (b = 1) by lia. subst b. rewrite u64_small by nia. lia.
    - destruct (Z.leb_spec si pi); [lia|]. assert (0 <= (b - 1) * (si - pi)) by nia. rewrite (u64_small (b - 1)), (u64_small (si - pi)) by lia. rewrite (u64_small ((b - 1) * (si - pi))) by lia. apply u64_small. lia. }
  split; [exact BT|]. rewrite BT.
  assert (R : forall rest, exists s' lp' ls' t0',
    shaper_client (shaper_init pi pl si ((b - 1) * (si - pi) + pl) (u64 start)) (burst start pi size ++ rest) =
     burst start pi size ++ shaper_client s' rest /\
    rep (peak s') pi pl lp' t0' /\ rep (sustained s') si ((b - 1) * (si - pi) + pl) ls' t0' /\
    t0' <= start + Z.of_nat size * pi < t0' + 2 ^ 64 /\
    leak ls' t0' (start + Z.of_nat size * pi) = Z.of_nat size * (si - pi)).
  { intros rest. apply (burst_run pi pl si ((b - 1) * (si - pi) + pl) start Hp Hl ltac:(nia) size 0 _ 0 0 start rest);
      [apply rep_init|apply rep_init|lia|unfold leak; lia|unfold leak; lia|right; nia|nia|nia]. }
  split.
  - intros rest. destruct (R rest) as (s' & lp' & ls' & t0' & X & _). exists s'. exact X.
  - intros Hj. unfold burst at 1. rewrite seq_S, map_app. fold (burst start pi size). cbn [map Nat.add].
    destruct (R [(start + Z.of_nat size * pi, 1)]) as (s' & lp' & ls' & t0' & X & R1 & R2 & T & L). rewrite X.
    cbn [shaper_client]. unfold shaper_request.
    destruct (request (peak s') (u64 (start + Z.of_nat size * pi))) as (p', dp) eqn:E1.
    destruct (request (sustained s') (u64 (start + Z.of_nat size * pi))) as (q', dq) eqn:E2.
    destruct (request_state _ pi pl lp' t0' (start + Z.of_nat size * pi) p' dp R1 Hl ltac:(lia) E1) as (_ & _ & _ & Hd).
    destruct (request_state _ si ((b - 1) * (si - pi) + pl) ls' t0' (start + Z.of_nat size * pi) q' dq R2 ltac:(assert (0 <= (b - 1) * (si - pi)) by nia; lia) ltac:(lia) E2) as (_ & _ & _ & Hd2).
    assert (0 < dq) by nia. rewrite Z.gtb_ltb. destruct (Z.eqb_spec (if dq <? dp then dp else dq) 0) as [D|D].
    + destruct (Z.ltb_spec dq dp); lia.
    + apply app_nil_r.
Qed.
