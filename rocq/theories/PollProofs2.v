From Coq Require Import ZArith List Bool Arith Lia.
From Verif Require Import CInt CUtil MuxModel MuxSpec MuxProofs MuxProofs2 MuxProofs3 MuxProofs4 MuxProofs5 PollModel PollSpec PollProofs.
Import ListNotations.
Local Open Scope Z_scope.

(** * The answer *)

Definition rv (l : list (option slot)) (i : Z) : Z := match slot_at l i with Some s => s_revents s | None => 0 end.
Lemma lay_some l lo ev : lay l lo ev -> Forall (fun o => o <> None) l.
Proof.
  intros L. apply Forall_forall. intros o I. apply In_nth_error in I as (n & E). assert (N : (n < length l)%nat) by (apply nth_error_Some; congruence).
  destruct (L (Z.of_nat n)) as (r & H); [lia|]. unfold slot_at in H. destruct (Z.ltb_spec (Z.of_nat n) 0); [lia|]. rewrite Nat2Z.id, E in H. destruct o; [discriminate|discriminate].
Qed.
Lemma answered_nth : forall l, Forall (fun o => o <> None) l -> forall r n, nth_error (answered l r) n = option_map (option_map (fun s => Slot (s_fd s) (s_events s) (nth n r (s_revents s)))) (nth_error l n).
Proof.
  intros l F. induction F as [|o l H F IH]; intros r n; [destruct n; reflexivity|]. destruct o as [s|]; [|contradiction]. destruct r as [|e r]; cbn [answered].
  - destruct (nth_error (Some s :: l) n) as [[t|]|]; cbn [option_map]; [destruct n; destruct t; reflexivity|reflexivity|reflexivity].
  - destruct n as [|n]; [reflexivity|]. cbn [nth_error nth]. apply IH.
Qed.
Lemma answered_length : forall l r, length (answered l r) = length l.
Proof. induction l as [|[s|] l IH]; intros [|e r]; cbn [answered length]; try reflexivity. rewrite IH. reflexivity. Qed.
Lemma answered_at l lo ev r i : lay l lo ev -> 0 <= i < Z.of_nat (length l) -> slot_at (answered l r) i = option_map (fun s => Slot (s_fd s) (s_events s) (nth (Z.to_nat i) r (s_revents s))) (slot_at l i).
Proof.
  intros L I. unfold slot_at. destruct (Z.ltb_spec i 0); [lia|]. rewrite (answered_nth l (lay_some l lo ev L)). destruct (nth_error l (Z.to_nat i)) as [[s|]|]; reflexivity.
Qed.
Lemma answered_lay l lo ev r : lay l lo ev -> lay (answered l r) lo ev.
Proof.
  intros L i I. rewrite answered_length in I. rewrite (answered_at l lo ev r i L I). destruct (L i I) as (x & E). rewrite E. cbn [option_map]. eexists. reflexivity.
Qed.
Lemma answered_rv l lo ev r i : lay l lo ev -> 0 <= i < Z.of_nat (length l) -> (Z.to_nat i < length r)%nat -> rv (answered l r) i = nth (Z.to_nat i) r 0.
Proof.
  intros L I R. unfold rv. rewrite (answered_at l lo ev r i L I). destruct (L i I) as (x & E). rewrite E. cbn [option_map s_revents]. apply nth_indep, R.
Qed.

Lemma after_loop_ok lo mask l ev : lay l lo ev -> forall n fd rdy, lo <= fd -> fd + Z.of_nat n <= lo + Z.of_nat (length l) -> 0 <= fd -> fd + Z.of_nat n <= 1024 ->
  exists rdy', after_loop n fd lo mask l rdy = Some rdy' /\ forall x, 0 <= x -> Z.testbit rdy' x = match ev x with Some _ => if (fd <=? x) && (x <? fd + Z.of_nat n) then negb (Z.land (rv l (x - lo)) mask =? 0) else Z.testbit rdy x | None => Z.testbit rdy x end.
Proof.
  intros L. induction n as [|n IH]; intros fd rdy B1 B2 B3 B4.
  - exists rdy. split; [reflexivity|]. intros x X. destruct (ev x); [|reflexivity]. destruct (Z.leb_spec fd x); [|reflexivity]. destruct (Z.ltb_spec x (fd + Z.of_nat 0)); [lia|reflexivity].
  - cbn [after_loop]. destruct (L (fd - lo)) as (r & E); [lia|]. rewrite E. cbn [bind s_fd s_revents]. replace (lo + (fd - lo)) with fd in E |- * by lia.
    assert (RV : rv l (fd - lo) = r) by (unfold rv; rewrite E; reflexivity).
    assert (ST : exists rdy1, (if fst (entry ev fd) <? 0 then Some rdy else if Z.land r mask =? 0 then fd_clr fd rdy else fd_set fd rdy) = Some rdy1 /\ forall x, 0 <= x -> Z.testbit rdy1 x = match ev x with Some _ => if x =? fd then negb (Z.land r mask =? 0) else Z.testbit rdy x | None => Z.testbit rdy x end).
    { unfold entry. destruct (ev fd) as [e|] eqn:EV; cbn [fst].
      - destruct (Z.ltb_spec fd 0); [lia|]. unfold fd_clr, fd_set. rewrite !in_size. destruct (Z.leb_spec 0 fd); [|lia]. destruct (Z.ltb_spec fd 1024); [|lia]. cbn [andb].
        destruct (Z.land r mask =? 0); eexists; (split; [reflexivity|]); intros x X.
        + rewrite Z.clearbit_eqb by lia. destruct (Z.eqb_spec x fd) as [->|NE]; [rewrite EV, Z.eqb_refl, andb_false_r; reflexivity|]. destruct (Z.eqb_spec fd x); [congruence|]. rewrite andb_true_r. destruct (ev x); reflexivity.
        + rewrite Z.setbit_eqb by lia. destruct (Z.eqb_spec x fd) as [->|NE]; [rewrite EV, Z.eqb_refl; reflexivity|]. destruct (Z.eqb_spec fd x); [congruence|]. destruct (ev x); reflexivity.
      - exists rdy. split; [reflexivity|]. intros x X. destruct (Z.eqb_spec x fd) as [->|]; [rewrite EV; reflexivity|destruct (ev x); reflexivity]. }
    destruct ST as (rdy1 & -> & P1). cbn [bind]. destruct (IH (fd + 1) rdy1) as (rdy2 & E2 & P2); [lia|lia|lia|lia|]. exists rdy2. split; [exact E2|]. intros x X. rewrite P2 by exact X. rewrite (P1 x X).
    destruct (ev x); [|reflexivity]. destruct (Z.eqb_spec x fd) as [->|NE].
    + destruct (Z.leb_spec (fd + 1) fd); [lia|]. destruct (Z.leb_spec fd fd); [|lia]. destruct (Z.ltb_spec fd (fd + Z.of_nat (S n))); [|lia]. cbn [andb]. rewrite RV. reflexivity.
    + destruct (Z.leb_spec (fd + 1) x), (Z.leb_spec fd x); try (exfalso; lia); [|reflexivity]. destruct (Z.ltb_spec x (fd + 1 + Z.of_nat n)), (Z.ltb_spec x (fd + Z.of_nat (S n))); try (exfalso; lia); reflexivity.
Qed.

(** What a set becomes: the bits of what is registered for anything, between its bounds, are set anew. *)
Definition renewed (m : mux) (g : registry) (w : which) (lo mask : Z) (l : list (option slot)) (s' : mset) : Prop :=
  exists rdy, s' = with_ready (sets m w) rdy /\
    forall x, 0 <= x -> Z.testbit rdy x = if knownb g x && (min (sets m w) <=? x) && (x <=? max (sets m w)) then negb (Z.land (rv l (x - lo)) mask =? 0) else Z.testbit (ready (sets m w)) x.
Lemma after_ok m g w lo mask l : all_inv m g -> (forall fd, In fd (g w) -> lo <= min (sets m w) /\ max (sets m w) < lo + Z.of_nat (length l)) -> lay l lo (evs g) ->
  exists s', poll_after lo (sets m w) mask l = Some s' /\ renewed m g w lo mask l s'.
Proof.
  intros S B L. destruct (S w) as (A & R & K). unfold poll_after. rewrite Z.geb_leb. destruct (g w) as [|y k] eqn:G.
  - destruct K as (K1 & K2 & K3). exists (sets m w). split; [rewrite K2; reflexivity|]. exists (ready (sets m w)). split; [unfold with_ready; destruct (sets m w); reflexivity|]. intros x X. destruct (Z.leb_spec x (max (sets m w))); [unfold MOSTNEGATIVE in *; lia|]. rewrite andb_false_r. reflexivity.
  - destruct K as (K1 & K2 & K3 & _). pose proof (R _ K1) as R1. pose proof (R _ K2) as R2. destruct (Z.leb_spec 0 (max (sets m w))); [|lia]. destruct (B y) as (B1 & B2); [left; reflexivity|]. specialize (K3 _ K1) as K4.
    destruct (after_loop_ok lo mask l _ L (Z.to_nat (max (sets m w) - min (sets m w) + 1)) (min (sets m w)) (ready (sets m w))) as (rdy & E & P); [lia|lia|lia|lia|]. rewrite E. cbn [bind].
    eexists. split; [reflexivity|]. exists rdy. split; [reflexivity|]. intros x X. rewrite (P x X). unfold evs. destruct (knownb g x); [|reflexivity]. cbn [andb].
    destruct (Z.leb_spec (min (sets m w)) x); [|reflexivity]. cbn [andb]. destruct (Z.ltb_spec x (min (sets m w) + Z.of_nat (Z.to_nat (max (sets m w) - min (sets m w) + 1)))), (Z.leb_spec x (max (sets m w))); try lia; reflexivity.
Qed.

(** * The wait *)

Definition size_of (m : mux) : Z := if fst (bounds_of m) <=? snd (bounds_of m) then snd (bounds_of m) - fst (bounds_of m) + 1 else 0.
Definition linv (p : poller) (g : registry) : Prop :=
  refresh p = false -> lay (slots p) (fst (bounds_of (p_mux p))) (evs g) /\ size_of (p_mux p) <= Z.of_nat (length (slots p)).

Lemma bounds_same m m' : (forall w, min (sets m' w) = min (sets m w) /\ max (sets m' w) = max (sets m w)) -> bounds_of m' = bounds_of m.
Proof.
  intros E. unfold bounds_of. cbn [map fold_left]. unfold poll_bounds. cbn [fst snd].
  destruct (E READ) as (-> & ->), (E WRITE) as (-> & ->), (E ACCEPT) as (-> & ->), (E URGENT) as (-> & ->), (E INTERRUPT) as (-> & ->). reflexivity.
Qed.
Lemma size_same m m' : bounds_of m' = bounds_of m -> size_of m' = size_of m.
Proof. unfold size_of. intros ->. reflexivity. Qed.
Lemma reset_bounds s : min (set_reset s) = min s /\ max (set_reset s) = max s /\ ready (set_reset s) = ready s.
Proof. unfold set_reset. destruct (next s >=? 0); [auto|]. destruct (max s <? 0); auto. Qed.

Lemma rebuild m g (l : list (option slot)) : all_inv m g -> 0 < size_of m -> size_of m <= Z.of_nat (length l) -> let lo := fst (bounds_of m) in exists l',
  (let l0 := map (fun _ => Some (Slot (-1) 0 0)) l in
   let* l1 := poll_before lo (sets m READ) POLLIN l0 in let* l2 := poll_before lo (sets m WRITE) POLLOUT l1 in let* l3 := poll_before lo (sets m ACCEPT) POLLIN l2 in
   let* l4 := poll_before lo (sets m URGENT) POLLPRI l3 in let* l5 := poll_before lo (sets m INTERRUPT) POLLPRI l4 in Some (l5, false)) = Some (l', false) /\ length l' = length l /\ lay l' lo (evs g).
Proof.
  intros S Z0 SZ lo. cbv zeta.
  assert (B : forall w fd, In fd (g w) -> lo <= min (sets m w) /\ max (sets m w) < lo + Z.of_nat (length l)).
  { intros w fd I. destruct (bounds_ok m g S) as [(N & _)|(_ & _ & B & B2 & _)]; [destruct (N fd); exists w; exact I|]. destruct (B w fd I). unfold size_of in SZ. destruct (Z.leb_spec (fst (bounds_of m)) (snd (bounds_of m))); [|lia]. unfold lo. lia. }
  pose proof (reset_lay l lo) as L0. assert (N0 : length (map (fun _ : option slot => Some (Slot (-1) 0 0)) l) = length l) by apply map_length. set (l0 := map _ l) in *. clearbody l0.
  destruct (before_ok m g READ lo POLLIN l0 _ S ltac:(rewrite N0; apply B) L0) as (l1 & -> & N1 & L1). cbn [bind].
  destruct (before_ok m g WRITE lo POLLOUT l1 _ S ltac:(rewrite N1, N0; apply B) L1) as (l2 & -> & N2 & L2). cbn [bind].
  destruct (before_ok m g ACCEPT lo POLLIN l2 _ S ltac:(rewrite N2, N1, N0; apply B) L2) as (l3 & -> & N3 & L3). cbn [bind].
  destruct (before_ok m g URGENT lo POLLPRI l3 _ S ltac:(rewrite N3, N2, N1, N0; apply B) L3) as (l4 & -> & N4 & L4). cbn [bind].
  destruct (before_ok m g INTERRUPT lo POLLPRI l4 _ S ltac:(rewrite N4, N3, N2, N1, N0; apply B) L4) as (l5 & -> & N5 & L5). cbn [bind].
  exists l5. split; [reflexivity|]. split; [lia|]. apply (lay_ext l5 lo _ _ L5). intros x _. apply plus_all.
Qed.

Lemma combine_entries g lo n r x w : (length r = n)%nat -> known g x -> 0 <= lo <= x -> x < lo + Z.of_nat n ->
  p_reported (entries g lo n) r w x = negb (Z.land (nth (Z.to_nat (x - lo)) r 0) (event w) =? 0).
Proof.
  intros LR K B1 B2. unfold p_reported, entries.
  assert (G : forall r a, existsb (fun '((f, _), y) => (f =? x) && negb (Z.land y (event w) =? 0)) (combine (map (fun i => entry (evs g) (lo + Z.of_nat i)) (seq a (length r))) r) = (lo + Z.of_nat a <=? x) && (x <? lo + Z.of_nat a + Z.of_nat (length r)) && negb (Z.land (nth (Z.to_nat (x - lo) - a) r 0) (event w) =? 0)).
  { clear r LR B2. induction r as [|y r IH]; intros a.
    - cbn [length seq map combine existsb]. destruct (Z.leb_spec (lo + Z.of_nat a) x); [|reflexivity]. destruct (Z.ltb_spec x (lo + Z.of_nat a + Z.of_nat 0)); [lia|reflexivity].
    - cbn [length seq map combine existsb]. rewrite IH. unfold entry at 1, evs at 1.
      assert (EQ : lo + Z.of_nat a = x -> knownb g (lo + Z.of_nat a) = true) by (intros ->; apply knownb_known, K).
      destruct (Z.eq_dec (lo + Z.of_nat a) x) as [Q|Q].
      + rewrite (EQ Q). rewrite Q, Z.eqb_refl. destruct (Z.leb_spec x x); [|lia]. destruct (Z.ltb_spec x (x + Z.of_nat (S (length r)))); [|lia]. destruct (Z.leb_spec (lo + Z.of_nat (S a)) x); [lia|]. cbn [andb]. rewrite orb_false_r. replace (Z.to_nat (x - lo) - a)%nat with 0%nat by lia. reflexivity.
      + assert (F : match (if knownb g (lo + Z.of_nat a) then Some (wanted g (lo + Z.of_nat a)) else None) with Some e => (lo + Z.of_nat a, e) | None => (-1, 0) end = (if knownb g (lo + Z.of_nat a) then lo + Z.of_nat a else -1, if knownb g (lo + Z.of_nat a) then wanted g (lo + Z.of_nat a) else 0)) by (destruct (knownb g (lo + Z.of_nat a)); reflexivity). rewrite F.
        destruct (Z.eqb_spec (if knownb g (lo + Z.of_nat a) then lo + Z.of_nat a else -1) x) as [Q2|_]; [destruct (knownb g (lo + Z.of_nat a)); [contradiction|lia]|]. cbn [andb orb].
        destruct (Z.leb_spec (lo + Z.of_nat (S a)) x), (Z.leb_spec (lo + Z.of_nat a) x); try (exfalso; lia); [|reflexivity]. destruct (Z.ltb_spec x (lo + Z.of_nat (S a) + Z.of_nat (length r))), (Z.ltb_spec x (lo + Z.of_nat a + Z.of_nat (S (length r)))); try (exfalso; lia); [|reflexivity]. cbn [andb].
        replace (Z.to_nat (x - lo) - a)%nat with (S (Z.to_nat (x - lo) - S a)) by lia. reflexivity. }
  rewrite <- LR. rewrite G. rewrite Nat.sub_0_r. destruct (Z.leb_spec (lo + Z.of_nat 0) x); [|lia]. destruct (Z.ltb_spec x (lo + Z.of_nat 0 + Z.of_nat (length r))); [|lia]. reflexivity.
Qed.

(** What a wait does to the sets. *)
Definition moved (m : mux) (g : registry) (c : option (list (Z * Z))) (ppoll : ppoll_t) (m' : mux) : Prop :=
  (forall w, sets m' w = sets m w) /\ (forall a, c = Some a -> fst (ppoll a) <= 0) \/
  exists a, c = Some a /\ 0 < fst (ppoll a) /\ forall w, exists rdy, sets m' w = set_reset (with_ready (sets m w) rdy) /\
    (length (snd (ppoll a)) = length a -> forall x, 0 <= x -> Z.testbit rdy x = if knownb g x && (min (sets m w) <=? x) && (x <=? max (sets m w)) then p_reported a (snd (ppoll a)) w x else Z.testbit (ready (sets m w)) x).

Lemma event_mask w : event w = match w with READ => POLLIN | WRITE => POLLOUT | ACCEPT => POLLIN | URGENT => POLLPRI | INTERRUPT => POLLPRI end. Proof. destruct w; reflexivity. Qed.

Lemma wait_step p g ppoll ticks : all_inv (p_mux p) g -> linv p g -> exists p' rc c, poll_wait p true ppoll ticks = Some (p', rc, c) /\
  all_inv (p_mux p') g /\ linv p' g /\ p_agrees (PWaits g ppoll ticks) (PSeen rc c) /\ moved (p_mux p) g c ppoll (p_mux p').
Proof.
  intros S LI. unfold poll_wait. set (m := p_mux p) in *. fold (bounds_of m). pose proof (bounds_ok m g S) as BO. pose proof (entries_ask m g S) as EA. fold (size_of m) in EA.
  rewrite (surjective_pairing (bounds_of m)). fold (size_of m). set (lo := fst (bounds_of m)) in *. set (n := size_of m) in *. cbn [negb andb]. rewrite andb_false_r.
  set (l0 := if n >? Z.of_nat (length (slots p)) then slots p ++ repeat None (Z.to_nat n - length (slots p)) else slots p).
  assert (N0 : n <= Z.of_nat (length l0)) by (unfold l0; rewrite Z.gtb_ltb; destruct (Z.ltb_spec (Z.of_nat (length (slots p))) n); [rewrite app_length, repeat_length; lia|lia]).
  assert (NN : 0 <= n /\ (n = 0 <-> forall fd, ~ known g fd)).
  { unfold n, size_of. fold lo. destruct BO as [(K & B)|(K1 & K2 & K3 & K4 & K5)]; [unfold lo; rewrite B; cbn; split; [lia|tauto]|]. destruct (Z.leb_spec lo (snd (bounds_of m))); [|lia]. split; [lia|]. split; [lia|]. intros K. destruct (K lo K1). }
  destruct NN as (NN & NK).
  (* after the refresh *)
  assert (RF : exists l1 f, (if n <=? 0 then Some (l0, refresh p) else if negb (refresh p) then Some (l0, refresh p) else
      let l := map (fun _ => Some (Slot (-1) 0 0)) l0 in
      let* l := poll_before lo (sets m READ) POLLIN l in let* l := poll_before lo (sets m WRITE) POLLOUT l in let* l := poll_before lo (sets m ACCEPT) POLLIN l in
      let* l := poll_before lo (sets m URGENT) POLLPRI l in let* l := poll_before lo (sets m INTERRUPT) POLLPRI l in Some (l, false)) = Some (l1, f) /\ length l1 = length l0 /\ (f = false \/ 0 < n -> lay l1 lo (evs g))).
  { destruct (Z.leb_spec n 0).
    - exists l0, (refresh p). split; [reflexivity|]. split; [reflexivity|]. intros [F|F]; [|lia]. destruct (LI F) as (L & SZ). fold m n lo in L, SZ. unfold l0. rewrite Z.gtb_ltb. destruct (Z.ltb_spec (Z.of_nat (length (slots p))) n); [lia|exact L].
    - destruct (refresh p) eqn:RP; cbn [negb].
      + destruct (rebuild m g l0 S) as (l' & E & L' & Y); [fold n; lia|fold n; lia|]. exists l', false. split; [exact E|]. split; [exact L'|]. intros _. exact Y.
      + exists l0, false. split; [reflexivity|]. split; [reflexivity|]. intros _. destruct (LI RP) as (L & SZ). fold m n lo in L, SZ. unfold l0. rewrite Z.gtb_ltb. destruct (Z.ltb_spec (Z.of_nat (length (slots p))) n); [lia|exact L]. }
  destruct RF as (l1 & f & RE & N1 & L1). cbv zeta in RE |- *. rewrite RE. cbn [bind].
  rewrite Z.gtb_ltb, Z.geb_leb. destruct (Z.ltb_spec 0 n) as [NP|NP]; [|destruct (Z.leb_spec 0 ticks)]; cbn [orb].
  - assert (AS : asked (firstn (Z.to_nat n) l1) = Some (entries g lo (Z.to_nat n))) by (apply asked_lay; [apply L1; auto|lia]). rewrite AS. cbn [bind]. set (a := entries g lo (Z.to_nat n)) in *.
    pose proof (L1 (or_intror NP)) as L. destruct (ppoll a) as (rc, r) eqn:PP. pose proof (answered_lay l1 lo _ (firstn (Z.to_nat n) r) L) as LA. pose proof (answered_length l1 (firstn (Z.to_nat n) r)) as NA. set (l2 := answered l1 (firstn (Z.to_nat n) r)) in *.
    assert (LI2 : forall m', (forall w, min (sets m' w) = min (sets m w) /\ max (sets m' w) = max (sets m w)) -> linv (Poller m' l2 lo (snd (bounds_of m)) f) g).
    { intros m' E _. cbn [p_mux slots]. rewrite (size_same m m' (bounds_same m m' E)), (bounds_same m m' E). fold lo n. split; [exact LA|lia]. }
    rewrite Z.gtb_ltb. destruct (Z.ltb_spec 0 rc) as [RC|RC].
    + assert (B : forall w fd, In fd (g w) -> lo <= min (sets m w) /\ max (sets m w) < lo + Z.of_nat (length l2)).
      { intros w fd I. destruct BO as [(K & _)|(_ & _ & B & B2 & _)]; [destruct (K fd); exists w; exact I|]. destruct (B w fd I). unfold n, size_of in N0. fold lo in N0. destruct (Z.leb_spec lo (snd (bounds_of m))); [|lia]. lia. }
      destruct (after_ok m g READ lo POLLIN l2 S (B READ) LA) as (sr & -> & PR). destruct (after_ok m g WRITE lo POLLOUT l2 S (B WRITE) LA) as (sw & -> & PW). destruct (after_ok m g ACCEPT lo POLLIN l2 S (B ACCEPT) LA) as (sa & -> & PA). destruct (after_ok m g URGENT lo POLLPRI l2 S (B URGENT) LA) as (su & -> & PU). destruct (after_ok m g INTERRUPT lo POLLPRI l2 S (B INTERRUPT) LA) as (si & -> & PI). cbn [bind].
      eexists _, _, _. split; [reflexivity|]. cbn [p_mux].
      assert (RN : forall w, renewed m g w lo (event w) l2 (match w with READ => sr | WRITE => sw | ACCEPT => sa | URGENT => su | INTERRUPT => si end)) by (intros []; assumption).
      set (ns := fun w => match w with READ => sr | WRITE => sw | ACCEPT => sa | URGENT => su | INTERRUPT => si end) in *. change (forall w, renewed m g w lo (event w) l2 (ns w)) in RN.
      split; [|split; [|split]].
      * intros w. cbn [sets]. destruct (RN w) as (rdy & E & _). change (sinv (set_reset (ns w)) (g w)). rewrite E. apply reset_ok, with_ready_ok, S.
      * apply LI2. intros w. cbn [sets]. destruct (RN w) as (rdy & E & _). change (min (set_reset (ns w)) = min (sets m w) /\ max (set_reset (ns w)) = max (sets m w)). destruct (reset_bounds (ns w)) as (-> & -> & _). rewrite E. split; reflexivity.
      * cbn [p_agrees p_called p_result]. split; [exact EA|rewrite PP; reflexivity].
      * right. exists a. rewrite PP. cbn [fst snd]. split; [reflexivity|]. split; [lia|]. intros w. destruct (RN w) as (rdy & E & P). exists rdy. split; [cbn [sets]; change (set_reset (ns w) = set_reset (with_ready (sets m w) rdy)); rewrite E; reflexivity|].
        intros LR x X. rewrite (P x X). destruct (knownb g x && (min (sets m w) <=? x) && (x <=? max (sets m w))) eqn:C; [|reflexivity]. apply andb_true_iff in C as (C & C2). apply andb_true_iff in C as (C0 & C1). apply Z.leb_le in C1, C2. apply knownb_known in C0.
        assert (LN : length a = Z.to_nat n) by (unfold a, entries; rewrite map_length, seq_length; reflexivity). rewrite LN in LR.
        assert (XB : 0 <= lo <= x /\ x < lo + n).
        { destruct BO as [(K & _)|(_ & _ & B3 & B4 & _)]; [destruct (K x C0)|]. pose proof C0 as (v & IV). destruct (B3 v x IV). fold lo in H, B4. unfold n, size_of. fold lo. destruct (Z.leb_spec lo (snd (bounds_of m))); lia. }
        unfold a. rewrite combine_entries; [|exact LR|exact C0|lia|lia]. unfold l2. rewrite firstn_all2 by lia. rewrite (answered_rv l1 lo (evs g)); [reflexivity|exact L|lia|lia].
    + eexists _, _, _. split; [reflexivity|]. cbn [p_mux]. split; [exact S|]. split; [apply LI2; auto|]. split; [split; [exact EA|cbn [p_result]; rewrite PP; reflexivity]|]. left. split; [reflexivity|]. intros a0 E. injection E as <-. rewrite PP. cbn [fst]. lia.
  - assert (Z0 : n = 0) by lia. rewrite Z0. cbn [Z.to_nat firstn asked bind]. destruct (ppoll []) as (rc, r) eqn:PP. assert (E0 : answered l1 [] = l1) by (destruct l1 as [|[]]; reflexivity). rewrite E0.
    assert (LI2 : forall m' lo' hi', (forall w, min (sets m' w) = min (sets m w) /\ max (sets m' w) = max (sets m w)) -> linv (Poller m' l1 lo' hi' f) g).
    { intros m' lo' hi' E F. cbn [p_mux slots refresh] in *. rewrite (size_same m m' (bounds_same m m' E)), (bounds_same m m' E). fold lo n. split; [apply L1; left; exact F|lia]. }
    assert (AG : p_agrees (PWaits g ppoll ticks) (PSeen rc (Some []))).
    { cbn [p_agrees p_called p_result]. rewrite PP. split; [|reflexivity]. pose proof (proj1 NK Z0) as K. split; [intros fd e []|]. split; [intros fd KF; destruct (K fd KF)|constructor]. }
    destruct (rc >? 0) eqn:RC; rewrite Z.gtb_ltb in RC; [apply Z.ltb_lt in RC|apply Z.ltb_ge in RC].
    + assert (EM : forall w, g w = []) by (intros w; destruct (g w) as [|y k] eqn:G; [reflexivity|destruct (proj1 NK Z0 y); exists w; rewrite G; left; reflexivity]).
      assert (PA : forall w mk, poll_after lo (sets m w) mk l1 = Some (sets m w)) by (intros w mk; destruct (S w) as (_ & _ & K); rewrite EM in K; destruct K as (_ & K & _); unfold poll_after; rewrite K; reflexivity).
      rewrite !PA. cbn [bind].
      set (ns := fun w => match w with READ => sets m READ | WRITE => sets m WRITE | ACCEPT => sets m ACCEPT | URGENT => sets m URGENT | INTERRUPT => sets m INTERRUPT end).
      assert (NS : forall w, ns w = sets m w) by (intros []; reflexivity).
      eexists _, _, _. split; [reflexivity|]. cbn [p_mux]. split; [|split; [|split; [exact AG|]]].
      * intros w. cbn [sets]. change (sinv (set_reset (ns w)) (g w)). rewrite NS. apply reset_ok, S.
      * apply LI2. intros w. cbn [sets]. change (min (set_reset (ns w)) = min (sets m w) /\ max (set_reset (ns w)) = max (sets m w)). rewrite NS. destruct (reset_bounds (sets m w)) as (-> & -> & _). auto.
      * right. exists []. rewrite PP. cbn [fst snd]. split; [reflexivity|]. split; [lia|]. intros w. exists (ready (sets m w)). split; [cbn [sets]; change (set_reset (ns w) = set_reset (with_ready (sets m w) (ready (sets m w)))); rewrite NS; f_equal; destruct (sets m w); reflexivity|].
        intros _ x X. destruct (knownb g x) eqn:KX; [apply knownb_known in KX; destruct (proj1 NK Z0 x KX)|reflexivity].
    + eexists _, _, _. split; [reflexivity|]. cbn [p_mux]. split; [exact S|]. split; [apply LI2; auto|]. split; [exact AG|]. left. split; [reflexivity|]. intros a E. injection E as <-. rewrite PP. cbn [fst]. lia.
  - eexists _, _, _. split; [reflexivity|]. cbn [p_mux]. split; [exact S|]. split; [|split; [|left; split; [reflexivity|discriminate]]].
    + intros F. cbn [p_mux slots refresh] in *. fold lo n. split; [apply L1; left; exact F|lia].
    + cbn [p_agrees p_called p_result]. split; [|reflexivity]. split; [lia|]. apply NK. lia.
Qed.
