From Coq Require Import ZArith List Bool Lia.
From Verif Require Import CInt CUtil FdModel FdSpec.
Import ListNotations.
Local Open Scope Z_scope.

Lemma s64_small x : 0 <= x < 2 ^ 63 -> s64 x = x.
Proof. intros H. unfold s64. rewrite Z.mod_small; lia. Qed.

Lemma sum_cons c l : sum (c :: l) = (c + sum l)%nat.
Proof. reflexivity. Qed.
Lemma firstn_add {A} (l : list A) n m : firstn (n + m) l = firstn n l ++ firstn m (skipn n l).
Proof. revert l. induction n as [|n IH]; intros l; [reflexivity|]. destruct l as [|x l]; [destruct m; reflexivity|]. cbn. f_equal. apply IH. Qed.
Lemma skipn_add {A} (l : list A) n m : skipn m (skipn n l) = skipn (n + m) l.
Proof. revert l. induction n as [|n IH]; intros l; [reflexivity|]. destruct l as [|x l]; [destruct m; reflexivity|]. cbn. apply IH. Qed.

(** Invariant: the stream is [stream]; [total] octets of it are in the buffer. *)
Lemma store_ok (buffer stream : list Z) total current :
  (total + current <= length buffer)%nat -> (total + current <= length stream)%nat ->
  store (firstn total stream ++ skipn total buffer) total (firstn current (skipn total stream)) =
  firstn (total + current) stream ++ skipn (total + current) buffer.
Proof.
  intros H1 H2. unfold store. rewrite firstn_length, skipn_length. replace (Nat.min current (length stream - total)) with current by lia.
  rewrite firstn_app, firstn_firstn, firstn_length. replace (Nat.min total total) with total by lia.
  replace (total - Nat.min total (length stream))%nat with O by lia. rewrite firstn_O, app_nil_r.
  rewrite skipn_app, firstn_length. replace (Nat.min total (length stream)) with total by lia.
  rewrite (skipn_all2 (firstn total stream)) by (rewrite firstn_length; lia). cbn [app].
  replace (total + current - total)%nat with current by lia. rewrite skipn_add. rewrite firstn_add, app_assoc. reflexivity.
Qed.

Definition read_post (min : Z) (max : nat) (buffer stream : list Z) (replies : nat -> reply) (total : nat)
    (res : Z * list Z * list Z * list nat) : Prop :=
  let '(r, b, p, counts) := res in
  let n := (total + sum counts)%nat in
  (n <= max)%nat /\ b = firstn n stream ++ skipn n buffer /\ p = skipn n stream /\ (n <= length stream)%nat /\
  Forall (fun c => 0 < c)%nat counts /\
  (r = Z.of_nat n \/ (r = -1 /\ n = O)) /\
  (forall pre c rest, counts = pre ++ c :: rest -> pre <> [] -> Z.of_nat (total + sum pre) < min) /\
  ((Z.of_nat n < min /\ (n < max)%nat) \/ (n = 0%nat /\ (0 < max)%nat) ->
     (r = Z.of_nat n /\ n = length stream) \/ exists e, replies (length counts) = Fail e) /\
  (r = -1 -> n = O /\ exists e, replies O = Fail e /\ counts = []).

Lemma read_loop_spec min max buffer stream : 0 <= min < 2 ^ 63 -> (max <= length buffer)%nat -> 
  forall fuel replies total slack, (slack + total = max)%nat -> (slack < fuel)%nat -> (total <= length stream)%nat -> 
  (total = O \/ Z.of_nat total < min) ->
  read_post min max buffer stream replies total
    (read_loop fuel replies min (firstn total stream ++ skipn total buffer) (skipn total stream) total slack).
Proof.
  intros Hm Hb. induction fuel as [|fuel IH]; intros replies total slack Hs Hf Ht Htm; [lia|].
  cbn [read_loop]. destruct (Nat.eqb_spec slack 0) as [Z0|Z0].
  { subst slack. assert (total = max) by lia. subst total. cbn [read_post sum fold_right]. rewrite Nat.add_0_r.
    split; [lia|]. split; [reflexivity|]. split; [reflexivity|]. split; [exact Ht|]. split; [constructor|]. split; [left; reflexivity|].
    split; [intros [|] ? ?; discriminate|]. split; [lia|]. lia. }
  destruct (replies O) as [e|k] eqn:R; cbn [sys_read].
  { cbn [read_post sum fold_right]. rewrite Nat.add_0_r.
    split; [lia|]. split; [reflexivity|]. split; [reflexivity|]. split; [exact Ht|]. split; [constructor|].
    split; [destruct (Nat.eqb_spec total 0); [right; auto|left; reflexivity]|].
    split; [intros [|] ? ?; discriminate|]. split; [intros _; right; exists e; exact R|].
    intros E. split; [destruct (Nat.eqb_spec total 0); [assumption|lia]|]. exists e. auto. }
  set (want := Nat.min slack (Pos.to_nat k)). assert (W : (0 < want <= slack)%nat) by lia.
  destruct (firstn want (skipn total stream)) as [|x data] eqn:D.
  { assert (L : length stream = total).
    { assert (length (firstn want (skipn total stream)) = O) by (rewrite D; reflexivity). rewrite firstn_length, skipn_length in H. lia. }
    cbn [read_post sum fold_right]. rewrite Nat.add_0_r.
    split; [lia|]. split; [reflexivity|]. split; [reflexivity|]. split; [exact Ht|]. split; [constructor|]. split; [left; reflexivity|].
    split; [intros [|] ? ?; discriminate|]. split; [intros _; left; lia|]. lia. }
  rewrite <- D. set (current := length (firstn want (skipn total stream))).
  assert (C : (0 < current <= slack)%nat /\ (total + current <= length stream)%nat /\ firstn current (skipn total stream) = firstn want (skipn total stream)).
  { unfold current. pose proof (f_equal (@length Z) D) as DL. cbn [length] in DL. rewrite firstn_length, skipn_length in DL |- *.
    split; [lia|]. split; [lia|]. destruct (Nat.le_gt_cases want (length stream - total)); [rewrite Nat.min_l by lia; reflexivity|].
    rewrite Nat.min_r by lia. rewrite !firstn_all2; [reflexivity|rewrite skipn_length; lia|rewrite skipn_length; lia]. }
  destruct C as (C1 & C2 & C3). rewrite <- C3. rewrite !store_ok by lia. rewrite skipn_add.
  clearbody current. rewrite Z.geb_leb, s64_small by lia.
  destruct (Z.leb_spec min (Z.of_nat (total + current))) as [M|M].
  { assert (S1 : (total + sum [current] = total + current)%nat) by (cbn; lia). unfold read_post. rewrite S1.
    split; [lia|]. split; [reflexivity|]. split; [reflexivity|]. split; [exact C2|]. split; [repeat constructor; lia|]. split; [left; reflexivity|].
    split; [intros [|y [|z pre]] c rest E; [congruence|discriminate|discriminate]|]. split; [lia|]. lia. }
  specialize (IH (fun n => replies (S n)) (total + current)%nat (slack - current)%nat ltac:(lia) ltac:(lia) C2 ltac:(right; lia)).
  destruct (read_loop _ _ _ _ _ _ _) as (((r, b), p), counts). unfold read_post in *. cbv zeta in *.
  assert (S1 : (total + sum (current :: counts) = total + current + sum counts)%nat) by (rewrite sum_cons; lia). rewrite S1.
  destruct IH as (I1 & I2 & I3 & I4 & I5 & I6 & I7 & I8 & I9).
  split; [exact I1|]. split; [exact I2|]. split; [exact I3|]. split; [exact I4|]. split; [constructor; [lia|exact I5]|]. split; [exact I6|].
  split.
  { intros [|y pre] c rest E N; [congruence|]. injection E as <- E.
    replace (total + sum (current :: pre))%nat with (total + current + sum pre)%nat by (rewrite sum_cons; lia).
    destruct pre as [|z pre]; [cbn [sum fold_right]; rewrite Nat.add_0_r; exact M|]. apply (I7 (z :: pre) c rest E). discriminate. }
  split; [intros H; exact (I8 H)|]. intros E. destruct (I9 E) as (A & _). lia.
Qed.

Lemma read_spec replies buffer stream min max : 0 <= min < 2 ^ 63 -> (max <= length buffer)%nat ->
  read_post min max buffer stream replies 0 (read_generic replies buffer stream min max).
Proof.
  intros Hm Hb. pose proof (read_loop_spec min max buffer stream Hm Hb (S max) replies 0 max ltac:(lia) ltac:(lia) ltac:(lia) ltac:(left; reflexivity)) as P.
  exact P.
Qed.

Definition write_post (min : Z) (max : nat) (buffer accepted : list Z) (replies : nat -> reply) (total : nat)
    (res : Z * list Z * list nat) : Prop :=
  let '(r, a, counts) := res in
  let n := (total + sum counts)%nat in
  (n <= max)%nat /\ a = accepted ++ firstn n buffer /\
  Forall (fun c => 0 < c)%nat counts /\
  (r = Z.of_nat n \/ (r = -1 /\ n = O)) /\
  (forall pre c rest, counts = pre ++ c :: rest -> pre <> [] -> Z.of_nat (total + sum pre) < min) /\
  ((Z.of_nat n < min /\ (n < max)%nat) \/ (n = 0%nat /\ (0 < max)%nat) -> exists e, replies (length counts) = Fail e) /\
  (r = -1 -> n = O /\ exists e, replies O = Fail e /\ counts = []).

Lemma write_loop_spec min max buffer accepted : 0 <= min < 2 ^ 63 -> (max <= length buffer)%nat ->
  forall fuel replies total slack, (slack + total = max)%nat -> (slack < fuel)%nat ->
  (total = O \/ Z.of_nat total < min) ->
  write_post min max buffer accepted replies total
    (write_loop fuel replies min buffer (accepted ++ firstn total buffer) total slack).
Proof.
  intros Hm Hb. induction fuel as [|fuel IH]; intros replies total slack Hs Hf Htm; [lia|].
  cbn [write_loop]. destruct (Nat.eqb_spec slack 0) as [Z0|Z0].
  { subst slack. cbn [write_post sum fold_right]. rewrite Nat.add_0_r.
    split; [lia|]. split; [reflexivity|]. split; [constructor|]. split; [left; reflexivity|].
    split; [intros [|] ? ?; discriminate|]. split; [lia|]. lia. }
  destruct (replies O) as [e|k] eqn:R; cbn [sys_write].
  { cbn [write_post sum fold_right]. rewrite Nat.add_0_r.
    split; [lia|]. split; [reflexivity|]. split; [constructor|].
    split; [destruct (Nat.eqb_spec total 0); [right; auto|left; reflexivity]|].
    split; [intros [|] ? ?; discriminate|]. split; [intros _; exists e; exact R|].
    intros E. split; [destruct (Nat.eqb_spec total 0); [assumption|lia]|]. exists e. auto. }
  destruct (Nat.min slack (Pos.to_nat k)) as [|c'] eqn:W; [lia|]. set (current := S c') in *. assert (C1 : (0 < current <= slack)%nat) by lia. clearbody current. clear W c'.
  rewrite <- app_assoc, <- firstn_add. rewrite Z.geb_leb, s64_small by lia.
  destruct (Z.leb_spec min (Z.of_nat (total + current))) as [M|M].
  { assert (S1 : (total + sum [current] = total + current)%nat) by (cbn; lia). unfold write_post. rewrite S1.
    split; [lia|]. split; [reflexivity|]. split; [repeat constructor; lia|]. split; [left; reflexivity|].
    split; [intros [|y [|z pre]] c rest E; [congruence|discriminate|discriminate]|]. split; [lia|]. lia. }
  specialize (IH (fun n => replies (S n)) (total + current)%nat (slack - current)%nat ltac:(lia) ltac:(lia) ltac:(right; lia)).
  destruct (write_loop _ _ _ _ _ _ _) as ((r, a), counts). unfold write_post in *. cbv zeta in *.
  assert (S1 : (total + sum (current :: counts) = total + current + sum counts)%nat) by (rewrite sum_cons; lia). rewrite S1.
  destruct IH as (I1 & I2 & I5 & I6 & I7 & I8 & I9).
  split; [exact I1|]. split; [exact I2|]. split; [constructor; [lia|exact I5]|]. split; [exact I6|].
  split.
  { intros [|y pre] c rest E N; [congruence|]. injection E as <- E.
    replace (total + sum (current :: pre))%nat with (total + current + sum pre)%nat by (rewrite sum_cons; lia).
    destruct pre as [|z pre]; [cbn [sum fold_right]; rewrite Nat.add_0_r; exact M|]. apply (I7 (z :: pre) c rest E). discriminate. }
  split; [intros H; exact (I8 H)|]. intros E. destruct (I9 E) as (A & _). lia.
Qed.

(** * Signals *)
Lemma upd_same f t l : upd f t l t = l.
Proof. unfold upd. rewrite Nat.eqb_refl. reflexivity. Qed.

Definition ok (t : nat) (s : process) : Prop :=
  let l := threads s t in
  0 <= signaled s /\ 0 <= handled s /\
  (handled s <= MAXIMUM -> handled s = zsum (returned s) + signaled s + taken l) /\
  (forall v, handler l = Some v -> v = signaled s /\ masked (at_ l) = false) /\
  (forall v, at_ l = Loaded v -> v = signaled s) /\
  (forall v, at_ l = Loaded v \/ at_ l = Cleared v \/ at_ l = Unmasked v -> 0 <= v) /\
  0 <= zsum (returned s) /\
  (pending l = true -> masked (at_ l) = true \/ handler l <> None).

Lemma act_ok t s a : ok t s -> of_thread t a -> ok t (act s a).
Proof.
  intros (O1 & O2 & O3 & O4 & O5 & O6 & O7 & O8) H. destruct a as [u|u]; cbn in H; subst u; unfold act.
  - destruct (threads s t) as [p pe h] eqn:L. cbn [at_ pending handler] in *.
    destruct h as [v|].
    + rewrite orb_true_r. unfold ok. cbn [threads signaled handled returned]. rewrite upd_same. cbn [at_ pending handler] in *.
      split; [exact O1|]. split; [exact O2|]. split; [exact O3|]. split; [exact O4|]. split; [exact O5|]. split; [exact O6|]. split; [exact O7|].
      intros _. right. discriminate.
    + rewrite orb_false_r. destruct (masked p) eqn:M; unfold ok; cbn [threads signaled handled returned]; rewrite upd_same; unfold enter; cbn [at_ pending handler] in *.
      * split; [exact O1|]. split; [exact O2|]. split; [exact O3|]. split; [discriminate|]. split; [exact O5|]. split; [exact O6|]. split; [exact O7|].
        intros _. left. exact M.
      * split; [exact O1|]. split; [exact O2|]. split; [exact O3|]. split; [intros w [= <-]; auto|]. split; [exact O5|]. split; [exact O6|]. split; [exact O7|].
        discriminate.
  - destruct (threads s t) as [p pe h] eqn:L. cbn [at_ pending handler] in *.
    destruct h as [v|].
    + destruct (O4 v eq_refl) as (V & M). unfold ok. cbn [threads signaled handled returned]. rewrite upd_same.
      assert (T0 : 0 <= taken (Local p pe (Some v))) by (unfold taken; cbn; destruct p; try lia; eapply O6; eauto).
      assert (X : handled s + 1 <= MAXIMUM -> v < MAXIMUM) by lia.
      assert (Tk : forall pe' h', taken (Local p pe' h') = taken (Local p pe (Some v))) by reflexivity.
      assert (NL : forall w, p <> Loaded w) by (intros w ->; discriminate M).
      set (sg := if v <? MAXIMUM then v + 1 else signaled s).
      assert (Sg : handled s + 1 <= MAXIMUM -> sg = signaled s + 1) by (intros Q; unfold sg; destruct (Z.ltb_spec v MAXIMUM); lia).
      assert (S0 : 0 <= sg) by (unfold sg; destruct (v <? MAXIMUM); lia).
      destruct pe; unfold enter; cbn [at_ pending handler signaled].
      * split; [exact S0|]. split; [lia|]. split; [intros Q; rewrite Tk; specialize (Sg Q); specialize (O3 ltac:(lia)); lia|].
        split; [intros w [= <-]; auto|]. split; [intros w E; exfalso; eapply NL, E|]. split; [exact O6|]. split; [exact O7|]. discriminate.
      * split; [exact S0|]. split; [lia|]. split; [intros Q; rewrite Tk; specialize (Sg Q); specialize (O3 ltac:(lia)); lia|].
        split; [discriminate|]. split; [intros w E; exfalso; eapply NL, E|]. split; [exact O6|]. split; [exact O7|]. discriminate.
    + assert (Tk : forall q pe' h', taken (Local q pe' h') = match q with Cleared v | Unmasked v => v | _ => 0 end) by reflexivity.
      rewrite Tk in O3.
      destruct p as [| | |v|v|v]; cbn [masked at_] in *.
      * destruct (mutex s); unfold ok; cbn [threads signaled handled returned]; [rewrite L|rewrite upd_same]; rewrite Tk; cbn [at_ pending handler masked];
          (split; [exact O1|]); (split; [exact O2|]); (split; [exact O3|]); (split; [discriminate|]); (split; [discriminate|]);
          (split; [intros w [E|[E|E]]; discriminate|]); (split; [exact O7|]); exact O8.
      * unfold ok; cbn [threads signaled handled returned]; rewrite upd_same; rewrite Tk; cbn [at_ pending handler masked].
        (split; [exact O1|]); (split; [exact O2|]); (split; [exact O3|]); (split; [discriminate|]); (split; [discriminate|]);
          (split; [intros w [E|[E|E]]; discriminate|]); (split; [exact O7|]); auto.
      * unfold ok; cbn [threads signaled handled returned]; rewrite upd_same; rewrite Tk; cbn [at_ pending handler masked].
        (split; [exact O1|]); (split; [exact O2|]); (split; [exact O3|]); (split; [discriminate|]); (split; [intros w [= <-]; reflexivity|]);
          (split; [intros w [E|[E|E]]; try discriminate; injection E as <-; exact O1|]); (split; [exact O7|]); auto.
      * pose proof (O5 v eq_refl) as V. unfold ok; cbn [threads signaled handled returned]; rewrite upd_same; rewrite Tk; cbn [at_ pending handler masked].
        (split; [lia|]); (split; [exact O2|]); (split; [intros Q; specialize (O3 Q); lia|]); (split; [discriminate|]); (split; [discriminate|]);
          (split; [intros w [E|[E|E]]; try discriminate; injection E as <-; lia|]); (split; [exact O7|]); auto.
      * pose proof (O6 v (or_intror (or_introl eq_refl))) as V. unfold ok; cbn [threads signaled handled returned]; rewrite upd_same. destruct pe; unfold enter; rewrite Tk; cbn [at_ pending handler masked].
        -- (split; [exact O1|]); (split; [exact O2|]); (split; [exact O3|]); (split; [intros w [= <-]; auto|]); (split; [discriminate|]);
             (split; [intros w [E|[E|E]]; try discriminate; injection E as <-; exact V|]); (split; [exact O7|]); discriminate.
        -- (split; [exact O1|]); (split; [exact O2|]); (split; [exact O3|]); (split; [discriminate|]); (split; [discriminate|]);
             (split; [intros w [E|[E|E]]; try discriminate; injection E as <-; exact V|]); (split; [exact O7|]); discriminate.
      * pose proof (O6 v (or_intror (or_intror eq_refl))) as V. unfold ok; cbn [threads signaled handled returned]; rewrite upd_same; rewrite Tk; cbn [at_ pending handler masked].
        change (zsum (v :: returned s)) with (v + zsum (returned s)).
        (split; [exact O1|]); (split; [exact O2|]); (split; [intros Q; specialize (O3 Q); lia|]); (split; [discriminate|]); (split; [discriminate|]);
          (split; [intros w [E|[E|E]]; discriminate|]); (split; [lia|]); exact O8.
Qed.

Lemma init_ok t : ok t process_init.
Proof. unfold ok, process_init. cbn. repeat split; try lia; try discriminate; intros w [E|[E|E]]; discriminate. Qed.
Lemma acts_ok t : forall l s, ok t s -> Forall (of_thread t) l -> ok t (acts s l).
Proof.
  induction l as [|a l IH]; intros s O F; [exact O|]. cbn. apply IH; [apply act_ok; [exact O|exact (Forall_inv F)]|exact (Forall_inv_tail F)].
Qed.

(** Signals are not lost. *)
Definition due (t : nat) (h : Z) (s : process) : Prop :=
  h < handled s \/ (h <= handled s /\ (handler (threads s t) <> None \/ pending (threads s t) = true)).
Lemma act_due t h s a : due t h s -> of_thread t a -> due t h (act s a).
Proof.
  intros D H. destruct a as [u|u]; cbn in H; subst u; unfold act.
  - destruct (threads s t) as [p pe hd] eqn:L. unfold due in *. rewrite L in D. cbn [at_ pending handler] in *.
    destruct (masked p || match hd with Some _ => true | None => false end); cbn [threads handled]; rewrite upd_same; unfold enter; cbn [handler pending];
      (destruct D as [D|(D & _)]; [left; exact D|right]); (split; [exact D|]); [right; reflexivity|left; discriminate].
  - destruct (threads s t) as [p pe hd] eqn:L. unfold due in *. rewrite L in D. cbn [at_ pending handler] in *.
    destruct hd as [v|].
    + cbn [threads handled]. left. lia.
    + assert (D' : h < handled s \/ (h <= handled s /\ pe = true)) by (destruct D as [D|(D & [E|E])]; [left; exact D|congruence|right; auto]).
      clear D. destruct p as [| | |v|v|v]; try destruct (mutex s); cbn [threads handled]; rewrite ?upd_same, ?L; cbn [handler pending];
        try (destruct D' as [D|(D & E)]; [left; exact D|right; split; [exact D|right; exact E]]).
      all: destruct D' as [D|(D & E)]; [left; exact D|right; split; [exact D|]]; subst pe; left; cbn; discriminate.
Qed.
Lemma acts_due t h : forall l s, due t h s -> Forall (of_thread t) l -> due t h (acts s l).
Proof.
  induction l as [|a l IH]; intros s D F; [exact D|]. cbn. apply IH; [apply act_due; [exact D|exact (Forall_inv F)]|exact (Forall_inv_tail F)].
Qed.
Lemma arrive_due t s : due t (handled s) (act s (Arrive t)).
Proof.
  unfold act, due. destruct (threads s t) as [p pe hd] eqn:L. cbn [at_ pending handler].
  destruct (masked p || match hd with Some _ => true | None => false end); cbn [threads handled]; rewrite upd_same; unfold enter; cbn [handler pending];
    right; (split; [lia|]); [right; reflexivity|left; discriminate].
Qed.

(** A check without interruption. *)
Lemma step1 s t : threads s t = Local Outside false None -> mutex s = None ->
  act s (Step t) = Process (signaled s) (Some t) (upd (threads s) t (Local Locked false None)) (returned s) (handled s).
Proof. intros L M. unfold act. rewrite L, M. reflexivity. Qed.
Lemma step2 s t : threads s t = Local Locked false None ->
  act s (Step t) = Process (signaled s) (mutex s) (upd (threads s) t (Local Masked false None)) (returned s) (handled s).
Proof. intros L. unfold act. rewrite L. reflexivity. Qed.
Lemma step3 s t : threads s t = Local Masked false None ->
  act s (Step t) = Process (signaled s) (mutex s) (upd (threads s) t (Local (Loaded (signaled s)) false None)) (returned s) (handled s).
Proof. intros L. unfold act. rewrite L. reflexivity. Qed.
Lemma step4 s t v : threads s t = Local (Loaded v) false None ->
  act s (Step t) = Process 0 (mutex s) (upd (threads s) t (Local (Cleared v) false None)) (returned s) (handled s).
Proof. intros L. unfold act. rewrite L. reflexivity. Qed.
Lemma step5 s t v : threads s t = Local (Cleared v) false None ->
  act s (Step t) = Process (signaled s) (mutex s) (upd (threads s) t (Local (Unmasked v) false None)) (returned s) (handled s).
Proof. intros L. unfold act. rewrite L. reflexivity. Qed.
Lemma step6 s t v : threads s t = Local (Unmasked v) false None ->
  act s (Step t) = Process (signaled s) None (upd (threads s) t (Local Outside false None)) (v :: returned s) (handled s).
Proof. intros L. unfold act. rewrite L. reflexivity. Qed.
Lemma check_run s t : threads s t = Local Outside false None -> mutex s = None ->
  let s' := acts s [Step t; Step t; Step t; Step t; Step t; Step t] in
  returned s' = signaled s :: returned s /\ signaled s' = 0 /\ threads s' t = Local Outside false None /\ mutex s' = None.
Proof.
  intros L M. cbv zeta. unfold acts. cbn [fold_left]. rewrite (step1 s t L M).
  match goal with |- context [act ?x (Step t)] => lazymatch x with Process _ _ _ _ _ => rewrite (step2 x t (upd_same _ _ _)) end end. cbn [signaled mutex threads returned handled].
  match goal with |- context [act ?x (Step t)] => lazymatch x with Process _ _ _ _ _ => rewrite (step3 x t (upd_same _ _ _)) end end. cbn [signaled mutex threads returned handled].
  match goal with |- context [act ?x (Step t)] => lazymatch x with Process _ _ _ _ _ => rewrite (step4 x t _ (upd_same _ _ _)) end end. cbn [signaled mutex threads returned handled].
  match goal with |- context [act ?x (Step t)] => lazymatch x with Process _ _ _ _ _ => rewrite (step5 x t _ (upd_same _ _ _)) end end. cbn [signaled mutex threads returned handled].
  match goal with |- context [act ?x (Step t)] => lazymatch x with Process _ _ _ _ _ => rewrite (step6 x t _ (upd_same _ _ _)) end end. cbn [signaled mutex threads returned handled].
  rewrite upd_same. auto.
Qed.

(** The first call failing. *)
Lemma read_fail replies buffer stream min max e : (0 < max)%nat -> replies O = Fail e ->
  fst (fst (fst (read_generic replies buffer stream min max))) = -1.
Proof. intros H R. unfold read_generic. cbn [read_loop]. destruct (Nat.eqb_spec max 0); [lia|]. rewrite R. reflexivity. Qed.
Lemma read_zero replies buffer stream min : read_generic replies buffer stream min 0 = (0, buffer, stream, []).
Proof. reflexivity. Qed.
Lemma write_fail replies buffer accepted min max e : (0 < max)%nat -> replies O = Fail e ->
  fst (fst (write_generic replies buffer accepted min max)) = -1.
Proof. intros H R. unfold write_generic. cbn [write_loop]. destruct (Nat.eqb_spec max 0); [lia|]. rewrite R. reflexivity. Qed.
