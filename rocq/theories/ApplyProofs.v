(** Proofs about shared values in sections. *)

From Coq Require Import ZArith List Bool Arith Lia.
From Verif Require Import ApplyModel ApplySpec.
Import ListNotations.

Lemma upd_same : forall A (f : nat -> A) t x, upd f t x t = x.
Proof. intros. unfold upd. rewrite Nat.eqb_refl. reflexivity. Qed.
Lemma upd_other : forall A (f : nat -> A) t x u, u <> t -> upd f t x u = f u.
Proof. intros. unfold upd. destruct (Nat.eqb_spec u t); [contradiction|reflexivity]. Qed.

Lemma of_thread_app : forall A t (a b : list (nat * A)), of_thread t (a ++ b) = of_thread t a ++ of_thread t b.
Proof. intros. unfold of_thread. rewrite filter_app, map_app. reflexivity. Qed.
Lemma of_thread_one : forall A t u (x : A), of_thread t [(u, x)] = if Nat.eqb u t then [x] else [].
Proof. intros. unfold of_thread. cbn. destruct (Nat.eqb u t); reflexivity. Qed.

Section Threads.
Context {V R : Type}.
Implicit Types (s : state V R) (h : list (nat * (V -> V * R))).

Lemma serially_snoc : forall h v t f, serially (h ++ [(t, f)]) v = (fst (f (fst (serially h v))), snd (serially h v) ++ [(t, snd (f (fst (serially h v))))]).
Proof.
  induction h as [|(u, g) h IH]; intros v t f; cbn [app serially]; [cbn [fst snd app]; destruct (f v); reflexivity|]. destruct (g v) as (v', r). rewrite IH. destruct (serially h v') as (w, rs). reflexivity.
Qed.
Lemma applied_none : forall (js : list (job V R)) rs, length rs <= length js -> applied js (rs ++ [None]) = applied js rs.
Proof.
  induction js as [|j js IH]; intros rs L; destruct rs as [|[r|] rs]; cbn [app applied length] in *; try reflexivity; try lia.
  - destruct js; reflexivity.
  - f_equal. apply IH. lia.
  - apply IH. lia.
Qed.
Lemma applied_some : forall (js : list (job V R)) rs r j rest, skipn (length rs) js = j :: rest -> applied js (rs ++ [Some r]) = applied js rs ++ [fn j].
Proof.
  induction js as [|j' js IH]; intros rs r j rest E; destruct rs as [|[r'|] rs]; cbn [app applied length skipn] in *; try discriminate E.
  - injection E as -> _. destruct js; reflexivity.
  - rewrite (IH _ _ _ _ E). reflexivity.
  - exact (IH _ _ _ _ E).
Qed.
Lemma given_app : forall (a b : list (option R)), given (a ++ b) = given a ++ given b.
Proof. induction a as [|[r|] a IH]; intros b; cbn [app given]; rewrite ?IH; reflexivity. Qed.

Lemma skipn_next : forall A (l : list A) n x rest, skipn n l = x :: rest -> skipn (S n) l = rest /\ n < length l /\ nth_error l n = Some x.
Proof.
  induction l as [|y l IH]; intros n x rest E; destruct n; cbn [skipn] in E; try discriminate E.
  - injection E as -> ->. repeat split; cbn; lia.
  - destruct (IH _ _ _ E) as (A1 & A2 & A3). repeat split; [exact A1|cbn; lia|exact A3].
Qed.

Definition holds (k : kind) s t : Prop := at_ (threads s t) <> Out /\ (k = Spin \/ alive (threads s t) = true).

(** What is so of a thread, given the history. *)
Definition sound (work : nat -> list (job V R)) (v0 : V) h (sh : V) (t : nat) (th : thread V R) : Prop :=
  jobs th = skipn (length (results th)) (work t) /\ length (results th) <= length (work t) /\
  (at_ th <> Out -> jobs th <> []) /\
  (forall i, nth_error (results th) i = Some None -> exists j, nth_error (work t) i = Some j /\ try j = true) /\
  (alive th = true -> forall v, at_ th = Got v -> v = sh) /\
  exists p q, of_thread t h = applied (work t) (results th) ++ p /\ of_thread t (snd (serially h v0)) = given (results th) ++ q /\
    match at_ th with Put r => exists j rest, jobs th = j :: rest /\ p = [fn j] /\ q = [r] | _ => p = [] /\ q = [] end.

Record inv (k : kind) (work : nat -> list (job V R)) (v0 : V) h s : Prop := Inv {
  inv_shared : shared s = fst (serially h v0);
  inv_locked : forall t, holds k s t -> lock s = true;
  inv_one : forall t u, holds k s t -> holds k s u -> t = u;
  inv_owner : lock s = true -> exists t, holds k s t;
  inv_threads : forall t, sound work v0 h (shared s) t (threads s t) }.

Lemma inv_init : forall k v work, inv k work v [] (init v work).
Proof.
  intros k v work. constructor; cbn; try reflexivity; try discriminate.
  - intros t (H & _). cbn in H. congruence.
  - intros t u (H & _). cbn in H. congruence.
  - intros t. unfold sound. cbn. split; [reflexivity|]. split; [lia|]. split; [congruence|]. split; [intros [|i] H; discriminate H|]. split; [discriminate|]. exists [], []. destruct (work t); repeat split.
Qed.

(** A thread other than the one that steps. *)
Lemma sound_other : forall work v0 h sh t th u f sh', sound work v0 h sh t th -> t <> u -> (alive th = true -> forall v, at_ th = Got v -> v = sh') -> sound work v0 (h ++ [(u, f)]) sh' t th.
Proof.
  intros work v0 h sh t th u f sh' (A & B & C & D & _ & p & q & P & Q & W) N G. repeat (split; [assumption|]). exists p, q. rewrite serially_snoc. cbn [snd]. rewrite !of_thread_app, !of_thread_one. destruct (Nat.eqb_spec u t); [congruence|]. rewrite !app_nil_r. auto.
Qed.

Lemma inv_step : forall k work v0 a s h, inv k work v0 h s -> exists h', inv k work v0 h' (step k a s).
Proof.
  intros k work v0 a s h IV. pose proof IV as IV0. destruct IV as [SH LK ON OW TH]. destruct a as [t|t]; cbn [step].
  - unfold advance. destruct (alive (threads s t)) eqn:AL; cbn [negb]; [|exists h; exact IV0].
    destruct (jobs (threads s t)) as [|j rest] eqn:JO; [exists h; exact IV0|].
    pose proof (TH t) as (A & B & C & D & E & p & q & P & Q & W). rewrite JO in A. destruct (skipn_next _ _ _ _ _ (eq_sym A)) as (N1 & N2 & N3).
    destruct (at_ (threads s t)) as [| |v|r] eqn:AT.
    + destruct (lock s) eqn:LO.
      * destruct (try j) eqn:TR; [|exists h; exact IV0]. exists h. constructor; cbn [shared lock threads].
        -- exact SH.
        -- intros; reflexivity.
        -- intros t1 u1 (H1 & H2) (H3 & H4). cbn [threads] in *. destruct (Nat.eq_dec t1 t) as [->|N1']; [rewrite upd_same in H1; cbn in H1; congruence|]. destruct (Nat.eq_dec u1 t) as [->|N2']; [rewrite upd_same in H3; cbn in H3; congruence|].
           rewrite upd_other in H1, H2 by assumption. rewrite upd_other in H3, H4 by assumption. apply ON; split; assumption.
        -- intros _. destruct (OW eq_refl) as (o & H1 & H2). exists o. assert (o <> t) by congruence. split; cbn [threads]; rewrite upd_other by assumption; assumption.
        -- intros u. destruct (Nat.eq_dec u t) as [->|N']; [rewrite upd_same|rewrite upd_other by exact N'; apply TH].
           unfold sound. cbn [jobs results at_ alive]. rewrite app_length. cbn [length]. rewrite Nat.add_1_r. split; [symmetry; exact N1|]. split; [lia|]. split; [congruence|]. split.
           { intros i H. destruct (Nat.lt_trichotomy i (length (results (threads s t)))) as [L|[->|L]].
             - rewrite nth_error_app1 in H by exact L. apply D, H.
             - exists j. split; assumption.
             - rewrite (proj2 (nth_error_None _ _)) in H; [discriminate H|]. rewrite app_length. cbn. lia. }
           split; [discriminate|]. destruct W as (-> & ->). exists [], []. rewrite !app_nil_r in *. rewrite applied_none by exact B. rewrite given_app. cbn [given]. rewrite app_nil_r. auto.
      * assert (NH : forall u, ~ holds k s u) by (intros u H; specialize (LK u H); congruence). exists h. constructor; cbn [shared lock threads].
        -- exact SH.
        -- intros; reflexivity.
        -- assert (X : forall u, holds k (State true (shared s) (upd (threads s) t (Thread true (j :: rest) In (results (threads s t))))) u -> u = t).
           { intros u (H1 & H2). cbn [threads] in *. destruct (Nat.eq_dec u t) as [->|N']; [reflexivity|]. rewrite upd_other in H1, H2 by exact N'. exfalso. apply (NH u). split; assumption. }
           intros u1 u2 H1 H2. rewrite (X _ H1), (X _ H2). reflexivity.
        -- intros _. exists t. split; cbn [threads]; rewrite upd_same; [discriminate|right; reflexivity].
        -- intros u. destruct (Nat.eq_dec u t) as [->|N']; [rewrite upd_same|rewrite upd_other by exact N'; apply TH].
           unfold sound. cbn [jobs results at_ alive]. split; [exact A|]. split; [exact B|]. split; [discriminate|]. split; [exact D|]. split; [discriminate|]. destruct W as (-> & ->). exists [], []. auto.
    + (* read *)
      assert (HT : holds k s t) by (split; [rewrite AT; discriminate|right; exact AL]).
      exists h. constructor; cbn [shared lock threads].
      * exact SH.
      * intros _ _. exact (LK t HT).
      * assert (X : forall u, holds k (State (lock s) (shared s) (upd (threads s) t (Thread true (j :: rest) (Got (shared s)) (results (threads s t))))) u -> holds k s u).
        { intros u (H1 & H2). cbn [threads] in *. destruct (Nat.eq_dec u t) as [->|N']; [exact HT|]. rewrite upd_other in H1, H2 by exact N'. split; assumption. }
        intros u1 u2 H1 H2. apply ON; apply X; assumption.
      * intros _. exists t. split; cbn [threads]; rewrite upd_same; [discriminate|right; reflexivity].
      * intros u. destruct (Nat.eq_dec u t) as [->|N']; [rewrite upd_same|rewrite upd_other by exact N'; apply TH].
        unfold sound. cbn [jobs results at_ alive]. split; [exact A|]. split; [exact B|]. split; [discriminate|]. split; [exact D|]. split; [congruence|]. destruct W as (-> & ->). exists [], []. auto.
    + (* write *)
      assert (HT : holds k s t) by (split; [rewrite AT; discriminate|right; exact AL]).
      assert (VS : v = shared s) by (apply E; [exact AL|reflexivity]). subst v.
      exists (h ++ [(t, fn j)]). constructor; cbn [shared lock threads].
      * rewrite serially_snoc. cbn [fst]. rewrite <- SH. reflexivity.
      * intros _ _. exact (LK t HT).
      * assert (X : forall u sh th, holds k (State (lock s) sh (upd (threads s) t th)) u -> holds k s u).
        { intros u sh th (H1 & H2). cbn [threads] in *. destruct (Nat.eq_dec u t) as [->|N']; [exact HT|]. rewrite upd_other in H1, H2 by exact N'. split; assumption. }
        intros u1 u2 H1 H2. apply ON; eapply X; eassumption.
      * intros _. exists t. split; cbn [threads]; rewrite upd_same; [discriminate|right; reflexivity].
      * intros u. destruct (Nat.eq_dec u t) as [->|N'].
        -- rewrite upd_same. unfold sound. cbn [jobs results at_ alive]. split; [exact A|]. split; [exact B|]. split; [discriminate|]. split; [exact D|]. split; [discriminate|].
           destruct W as (-> & ->). exists [fn j], [snd (fn j (shared s))]. rewrite serially_snoc. cbn [snd]. rewrite !of_thread_app, !of_thread_one, Nat.eqb_refl, P, Q, !app_nil_r, <- SH. repeat split. exists j, rest. auto.
        -- rewrite upd_other by exact N'. eapply sound_other; [apply TH|exact N'|]. intros AU v AV. exfalso. apply N'. apply ON; [|exact HT]. split; [rewrite AV; discriminate|right; exact AU].
    + (* leave *)
      assert (HT : holds k s t) by (split; [rewrite AT; discriminate|right; exact AL]).
      exists h. assert (X : forall u, ~ holds k (State false (shared s) (upd (threads s) t (Thread true rest Out (results (threads s t) ++ [Some r])))) u).
      { intros u (H1 & H2). cbn [threads] in *. destruct (Nat.eq_dec u t) as [->|N']; [rewrite upd_same in H1; cbn in H1; congruence|]. rewrite upd_other in H1, H2 by exact N'. apply N'. apply ON; [split; assumption|exact HT]. }
      constructor; cbn [shared lock threads].
      * exact SH.
      * intros u H. destruct (X u H).
      * intros u1 u2 H. destruct (X u1 H).
      * discriminate.
      * intros u. destruct (Nat.eq_dec u t) as [->|N']; [rewrite upd_same|rewrite upd_other by exact N'; apply TH].
        unfold sound. cbn [jobs results at_ alive]. rewrite app_length. cbn [length]. rewrite Nat.add_1_r. split; [symmetry; exact N1|]. split; [lia|]. split; [congruence|]. split.
        { intros i H. destruct (Nat.lt_trichotomy i (length (results (threads s t)))) as [L|[->|L]].
          - rewrite nth_error_app1 in H by exact L. apply D, H.
          - rewrite nth_error_app2 in H by lia. rewrite Nat.sub_diag in H. discriminate H.
          - rewrite (proj2 (nth_error_None _ _)) in H; [discriminate H|]. rewrite app_length. cbn. lia. }
        split; [discriminate|]. destruct W as (j' & rest' & JE & -> & ->). rewrite JO in JE. injection JE as <- <-. exists [], []. rewrite !app_nil_r. rewrite (applied_some _ _ _ j rest) by (symmetry; exact A). rewrite given_app. cbn [given]. auto.
  - unfold cancel. destruct (alive (threads s t)) eqn:AL; cbn [negb]; [|exists h; exact IV0]. exists h.
    set (dead := Thread false (jobs (threads s t)) (at_ (threads s t)) (results (threads s t))).
    assert (SD : forall u, sound work v0 h (shared s) u (upd (threads s) t dead u)).
    { intros u. destruct (Nat.eq_dec u t) as [->|N']; [rewrite upd_same|rewrite upd_other by exact N'; apply TH]. destruct (TH t) as (A & B & C & D & E & PQ). unfold sound. cbn [dead jobs results at_ alive]. repeat (split; [assumption|]). split; [discriminate|exact PQ]. }
    assert (HO : forall l u, holds k (State l (shared s) (upd (threads s) t dead)) u -> holds k s u).
    { intros l u (H1 & H2). cbn [threads] in *. destruct (Nat.eq_dec u t) as [->|N']; [rewrite upd_same in H1, H2; cbn in H1, H2; split; [exact H1|right; exact AL]|rewrite upd_other in H1, H2 by exact N'; split; assumption]. }
    destruct (at_ (threads s t)) eqn:AT; [|destruct k|destruct k|destruct k].
    + constructor; cbn [shared lock threads]; [exact SH|intros u H; exact (LK u (HO _ u H))|intros u1 u2 H1 H2; exact (ON _ _ (HO _ _ H1) (HO _ _ H2))| |exact SD].
      intros L. destruct (OW L) as (o & H1 & H2). exists o. assert (o <> t) by congruence. split; cbn [threads]; rewrite upd_other by assumption; assumption.
    + assert (HT : holds Mutex s t) by (split; [rewrite AT; discriminate|right; exact AL]).
      assert (X : forall u, ~ holds Mutex (State false (shared s) (upd (threads s) t dead)) u).
      { intros u H. pose proof (ON _ _ (HO _ _ H) HT). subst u. destruct H as (_ & [H|H]); [discriminate H|]. cbn [threads] in H. rewrite upd_same in H. discriminate H. }
      constructor; cbn [shared lock threads]; [exact SH|intros u H; destruct (X u H)|intros u1 u2 H1; destruct (X u1 H1)|discriminate|exact SD].
    + constructor; cbn [shared lock threads]; [exact SH|intros u H; exact (LK u (HO _ u H))|intros u1 u2 H1 H2; exact (ON _ _ (HO _ _ H1) (HO _ _ H2))| |exact SD].
      intros L. exists t. split; cbn [threads]; rewrite upd_same; [cbn; discriminate|left; reflexivity].
    + assert (HT : holds Mutex s t) by (split; [rewrite AT; discriminate|right; exact AL]).
      assert (X : forall u, ~ holds Mutex (State false (shared s) (upd (threads s) t dead)) u).
      { intros u H. pose proof (ON _ _ (HO _ _ H) HT). subst u. destruct H as (_ & [H|H]); [discriminate H|]. cbn [threads] in H. rewrite upd_same in H. discriminate H. }
      constructor; cbn [shared lock threads]; [exact SH|intros u H; destruct (X u H)|intros u1 u2 H1; destruct (X u1 H1)|discriminate|exact SD].
    + constructor; cbn [shared lock threads]; [exact SH|intros u H; exact (LK u (HO _ u H))|intros u1 u2 H1 H2; exact (ON _ _ (HO _ _ H1) (HO _ _ H2))| |exact SD].
      intros L. exists t. split; cbn [threads]; rewrite upd_same; [cbn; discriminate|left; reflexivity].
    + assert (HT : holds Mutex s t) by (split; [rewrite AT; discriminate|right; exact AL]).
      assert (X : forall u, ~ holds Mutex (State false (shared s) (upd (threads s) t dead)) u).
      { intros u H. pose proof (ON _ _ (HO _ _ H) HT). subst u. destruct H as (_ & [H|H]); [discriminate H|]. cbn [threads] in H. rewrite upd_same in H. discriminate H. }
      constructor; cbn [shared lock threads]; [exact SH|intros u H; destruct (X u H)|intros u1 u2 H1; destruct (X u1 H1)|discriminate|exact SD].
    + constructor; cbn [shared lock threads]; [exact SH|intros u H; exact (LK u (HO _ u H))|intros u1 u2 H1 H2; exact (ON _ _ (HO _ _ H1) (HO _ _ H2))| |exact SD].
      intros L. exists t. split; cbn [threads]; rewrite upd_same; [cbn; discriminate|left; reflexivity].
Qed.
Lemma inv_run : forall k work v0 acts s h, inv k work v0 h s -> exists h', inv k work v0 h' (run k acts s).
Proof. induction acts as [|a acts IH]; intros s h IV; cbn [run]; [eauto|]. destruct (inv_step k work v0 a s h IV) as (h' & IV'). exact (IH _ _ IV'). Qed.

Lemma run_app : forall k a b s, run k (a ++ b) s = run k b (run k a s).
Proof. induction a as [|x a IH]; intros b s; cbn [app run]; [reflexivity|apply IH]. Qed.

(** With nobody cancelled, all are alive. *)
Lemma spared_alive : forall k acts s, Forall spared acts -> (forall t, alive (threads s t) = true) -> forall t, alive (threads (run k acts s) t) = true.
Proof.
  induction acts as [|a acts IH]; intros s F A; cbn [run]; [exact A|]. inversion F as [|? ? SA F']; subst. apply IH; [exact F'|]. intros t. destruct a as [u|u]; [|destruct SA]. cbn [step]. unfold advance. rewrite (A u). cbn [negb].
  destruct (jobs (threads s u)) as [|j rest]; [apply A|]. destruct (at_ (threads s u)); [destruct (lock s); [destruct (try j)|]| | |]; cbn [threads]; try apply A; (destruct (Nat.eq_dec t u) as [->|N]; [rewrite upd_same; reflexivity|rewrite upd_other by exact N; apply A]).
Qed.

(** From the inside, out. *)
Lemma way_out : forall k s o, alive (threads s o) = true -> at_ (threads s o) <> Out -> jobs (threads s o) <> [] ->
  exists n, lock (run k (repeat (Run o) n) s) = false /\ (forall u, u <> o -> threads (run k (repeat (Run o) n) s) u = threads s u) /\ results (threads (run k (repeat (Run o) n) s) o) <> results (threads s o) /\
    exists r, results (threads (run k (repeat (Run o) n) s) o) = results (threads s o) ++ [Some r].
Proof.
  intros k s o AL AT JO. destruct (jobs (threads s o)) as [|j rest] eqn:J; [congruence|].
  assert (P4 : forall s r, alive (threads s o) = true -> jobs (threads s o) = j :: rest -> at_ (threads s o) = Put r ->
    lock (run k [Run o] s) = false /\ (forall u, u <> o -> threads (run k [Run o] s) u = threads s u) /\ results (threads (run k [Run o] s) o) = results (threads s o) ++ [Some r]).
  { intros s' r A1 A2 A3. cbn [run step]. unfold advance. rewrite A1, A2, A3. cbn [negb lock threads]. rewrite upd_same. repeat split. intros u N. apply upd_other, N. }
  assert (P3 : forall s v, alive (threads s o) = true -> jobs (threads s o) = j :: rest -> at_ (threads s o) = Got v ->
    lock (run k [Run o; Run o] s) = false /\ (forall u, u <> o -> threads (run k [Run o; Run o] s) u = threads s u) /\ exists r, results (threads (run k [Run o; Run o] s) o) = results (threads s o) ++ [Some r]).
  { intros s' v A1 A2 A3. change [Run o; Run o] with ([Run o] ++ [Run o]). rewrite !run_app.
    assert (E : run k [Run o] s' = State (lock s') (fst (fn j v)) (upd (threads s') o (Thread true (j :: rest) (Put (snd (fn j v))) (results (threads s' o))))) by (cbn [run step]; unfold advance; rewrite A1, A2, A3; reflexivity).
    rewrite E. destruct (P4 (State (lock s') (fst (fn j v)) (upd (threads s') o (Thread true (j :: rest) (Put (snd (fn j v))) (results (threads s' o))))) (snd (fn j v))) as (B1 & B2 & B3); try (cbn [threads]; rewrite upd_same; reflexivity).
    split; [exact B1|]. split; [intros u N; rewrite (B2 u N); cbn [threads]; apply upd_other, N|]. exists (snd (fn j v)). rewrite B3. cbn [threads]. rewrite upd_same. reflexivity. }
  assert (P2 : forall s, alive (threads s o) = true -> jobs (threads s o) = j :: rest -> at_ (threads s o) = In ->
    lock (run k [Run o; Run o; Run o] s) = false /\ (forall u, u <> o -> threads (run k [Run o; Run o; Run o] s) u = threads s u) /\ exists r, results (threads (run k [Run o; Run o; Run o] s) o) = results (threads s o) ++ [Some r]).
  { intros s' A1 A2 A3. change [Run o; Run o; Run o] with ([Run o] ++ [Run o; Run o]). rewrite !run_app.
    assert (E : run k [Run o] s' = State (lock s') (shared s') (upd (threads s') o (Thread true (j :: rest) (Got (shared s')) (results (threads s' o))))) by (cbn [run step]; unfold advance; rewrite A1, A2, A3; reflexivity).
    rewrite E. destruct (P3 (State (lock s') (shared s') (upd (threads s') o (Thread true (j :: rest) (Got (shared s')) (results (threads s' o))))) (shared s')) as (B1 & B2 & r & B3); try (cbn [threads]; rewrite upd_same; reflexivity).
    split; [exact B1|]. split; [intros u N; rewrite (B2 u N); cbn [threads]; apply upd_other, N|]. exists r. rewrite B3. cbn [threads]. rewrite upd_same. reflexivity. }
  assert (NE : forall (l : list (option R)) x, l ++ [x] <> l) by (intros l x H; apply (f_equal (@length _)) in H; rewrite app_length in H; cbn in H; lia).
  destruct (at_ (threads s o)) as [| |v|r] eqn:AT'; [congruence|exists 3; destruct (P2 s AL J AT') as (B1 & B2 & r & B3)|exists 2; destruct (P3 s v AL J AT') as (B1 & B2 & r & B3)|exists 1; destruct (P4 s r AL J AT') as (B1 & B2 & B3)];
    (split; [exact B1|]; split; [exact B2|]; split; [cbn [repeat] in *; rewrite B3; apply NE|exists r; exact B3]).
Qed.
Lemma way_in : forall k s t j rest, lock s = false -> alive (threads s t) = true -> at_ (threads s t) = Out -> jobs (threads s t) = j :: rest ->
  exists n r, results (threads (run k (repeat (Run t) n) s) t) = results (threads s t) ++ [Some r].
Proof.
  intros k s t j rest L AL AT J. set (s1 := State true (shared s) (upd (threads s) t (Thread true (j :: rest) In (results (threads s t))))).
  assert (E : run k [Run t] s = s1) by (cbn [run step]; unfold advance; rewrite AL, J, AT, L; reflexivity).
  destruct (way_out k s1 t) as (n & _ & _ & _ & r & H); try (unfold s1; cbn [threads]; rewrite upd_same; cbn; (reflexivity || discriminate)).
  exists (S n), r. change (repeat (Run t) (S n)) with ([Run t] ++ repeat (Run t) n). rewrite run_app, E, H. unfold s1. cbn [threads]. rewrite upd_same. reflexivity.
Qed.

(** A spin lock that nobody who is alive holds. *)
Definition stuck (v : V) s : Prop := lock s = true /\ shared s = v /\ forall t, (alive (threads s t) = true -> at_ (threads s t) = Out) /\ given (results (threads s t)) = [].
Lemma stuck_step : forall v a s, stuck v s -> stuck v (step Spin a s).
Proof.
  intros v a s (L & S & T). destruct a as [t|t]; cbn [step]; [unfold advance|unfold cancel]; destruct (T t) as (T1 & T2); destruct (alive (threads s t)) eqn:AL; cbn [negb]; try (split; [exact L|]; split; [exact S|exact T]).
  - rewrite (T1 eq_refl). destruct (jobs (threads s t)) as [|j rest]; [split; [exact L|]; split; [exact S|exact T]|]. rewrite L. destruct (try j); [|split; [exact L|]; split; [exact S|exact T]].
    split; [reflexivity|]. split; [exact S|]. intros u. cbn [threads]. destruct (Nat.eq_dec u t) as [->|N]; [rewrite upd_same; cbn; split; [reflexivity|rewrite given_app, T2; reflexivity]|rewrite upd_other by exact N; apply T].
  - rewrite (T1 eq_refl). split; [exact L|]. split; [exact S|]. intros u. cbn [threads]. destruct (Nat.eq_dec u t) as [->|N]; [rewrite upd_same; cbn; split; [discriminate|exact T2]|rewrite upd_other by exact N; apply T].
Qed.
Lemma stuck_run : forall v acts s, stuck v s -> stuck v (run Spin acts s).
Proof. induction acts as [|a acts IH]; intros s H; cbn [run]; [exact H|]. apply IH, stuck_step, H. Qed.

End Threads.

(** Counting. *)
Local Open Scope Z_scope.
Lemma serially_count : forall h v, Forall (fun x => snd x = fn count) h ->
  fst (serially h v) = v + Z.of_nat (length h) /\ forall i t r, nth_error (snd (serially h v)) i = Some (t, r) -> r = v + Z.of_nat i + 1.
Proof.
  induction h as [|(t, f) h IH]; intros v F; cbn [serially].
  - split; [cbn; lia|intros [|i] t r H; discriminate H].
  - inversion F as [|? ? E F']; subst. cbn [snd] in E. subst f. cbn [fn count]. destruct (IH (v + 1) F') as (A & B). destruct (serially h (v + 1)) as (w, rs). cbn [fst snd] in *. split; [rewrite A; cbn [length]; lia|].
    intros [|i] u r H; cbn in H; [injection H as _ <-; lia|]. rewrite (B _ _ _ H). lia.
Qed.

Lemma of_thread_nth : forall A (l : list (nat * A)) t i r, nth_error (of_thread t l) i = Some r -> exists n, nth_error l n = Some (t, r) /\ of_thread t (firstn n l) = firstn i (of_thread t l) /\ length (of_thread t (firstn n l)) = i.
Proof.
  induction l as [|(u, x) l IH]; intros t i r H; [destruct i; discriminate H|]. change ((u, x) :: l) with ([(u, x)] ++ l) in H |- *. rewrite of_thread_app, of_thread_one in H |- *. destruct (Nat.eqb_spec u t) as [->|N].
  - destruct i as [|i]; cbn [app nth_error] in H.
    + injection H as <-. exists O. repeat split.
    + destruct (IH _ _ _ H) as (n & A1 & A2 & A3). exists (S n). split; [exact A1|]. cbn [app firstn]. change ((t, x) :: firstn n l) with ([(t, x)] ++ firstn n l). rewrite of_thread_app, of_thread_one, Nat.eqb_refl. cbn [app firstn length]. rewrite A2, <- A2, A3. auto.
  - cbn [app] in H |- *. destruct (IH _ _ _ H) as (n & A1 & A2 & A3). exists (S n). split; [exact A1|]. cbn [firstn]. change ((u, x) :: firstn n l) with ([(u, x)] ++ firstn n l). rewrite of_thread_app, of_thread_one. destruct (Nat.eqb_spec u t); [contradiction|]. cbn [app]. auto.
Qed.
Lemma of_thread_in : forall A (l : list (nat * A)) t x, List.In (t, x) l -> List.In x (of_thread t l).
Proof. intros A l t x H. unfold of_thread. apply in_map_iff. exists (t, x). split; [reflexivity|]. apply filter_In. split; [exact H|apply Nat.eqb_refl]. Qed.
Lemma applied_in : forall V R (js : list (job V R)) rs f, List.In f (applied js rs) -> exists j, List.In j js /\ f = fn j.
Proof.
  induction js as [|j js IH]; intros rs f H; [destruct rs; destruct H|]. destruct rs as [|[r|] rs]; cbn [applied] in H; [destruct H| |].
  - destruct H as [<-|H]; [exists j; split; [left; reflexivity|reflexivity]|]. destruct (IH _ _ H) as (j' & A & B). exists j'. split; [right; exact A|exact B].
  - destruct (IH _ _ H) as (j' & A & B). exists j'. split; [right; exact A|exact B].
Qed.
Lemma given_nth : forall R (rs : list (option R)) i r, nth_error rs i = Some (Some r) -> nth_error (given rs) (length (given (firstn i rs))) = Some r.
Proof.
  induction rs as [|[x|] rs IH]; intros i r H; destruct i as [|i]; cbn [nth_error] in H; try discriminate H; cbn [firstn given length nth_error].
  - injection H as <-. reflexivity.
  - apply IH, H.
  - apply IH, H.
Qed.
Lemma given_mono : forall R (rs : list (option R)) i j r r', nth_error rs i = Some (Some r) -> nth_error rs j = Some (Some r') -> length (given (firstn i rs)) = length (given (firstn j rs)) -> i = j.
Proof.
  induction rs as [|[x|] rs IH]; intros i j r r' Hi Hj E; destruct i as [|i], j as [|j]; cbn [nth_error] in Hi, Hj; try discriminate Hi; try discriminate Hj; cbn [firstn given length] in E; try reflexivity; try discriminate E.
  - f_equal. eapply IH; [exact Hi|exact Hj|]. congruence.
  - f_equal. eapply IH; [exact Hi|exact Hj|exact E].
Qed.

Lemma given_in : forall R (rs : list (option R)) r, List.In r (given rs) -> List.In (Some r) rs.
Proof. induction rs as [|[x|] rs IH]; intros r H; cbn [given] in H; [destruct H|destruct H as [<-|H]; [left; reflexivity|right; apply IH, H]|right; apply IH, H]. Qed.
