(** Proofs about the reader writer locks: the invariant. *)

From Coq Require Import ZArith List Bool Lia.
From Verif Require Import CInt CUtil ReaderwriterModel ReaderwriterSpec ReaderwriterProofs.
Import ListNotations.
Local Open Scope Z_scope.

Record inv (tr : list event) (s : rw) : Prop := Inv {
  V_queue : matches s (pending tr);
  V_pend : forall t r, In (t, r) (pending tr) -> exists w, waits s t = Some (r, w);
  V_grant : forall t r, In (t, r) (granted tr) -> data s t = pend r /\ rw_role r /\ waits s t = Some (r, true);
  V_nodup : NoDup (map fst (pending tr ++ granted tr));
  V_waits : forall t r w, waits s t = Some (r, w) -> In (t, r) (pending tr) \/ In (t, r) (granted tr);
  V_max : maximum s = peak tr /\ waiting s <= maximum s;
  V_reading : reading s = Z.of_nat (length (readers tr)) + count READER (granted tr);
  V_writing : writing s = Z.of_nat (length (writers tr)) + count WRITER (granted tr);
  V_excl : writing s = 0 \/ (writing s = 1 /\ reading s = 0);
  V_busy : pending tr <> [] -> 0 < reading s + writing s;
  V_limit : reading s + Z.of_nat (length (pending tr)) <= LIMIT
}.

Lemma init_inv : inv [] init.
Proof.
  constructor; cbn; try tauto; try lia.
  - split; [reflexivity|]. split; [intros ? ? []|]. split; [constructor|reflexivity].
  - constructor.
  - discriminate.
  - unfold LIMIT. lia.
Qed.

Lemma none_out tr s t : inv tr s -> waits s t = None -> ~ In t (map fst (pending tr)) /\ ~ In t (map fst (granted tr)).
Proof.
  intros V W. split; intros I; apply in_map_iff in I as ((x & r) & E & I); cbn in E; subst x.
  - destruct (V_pend _ _ V t r I) as (w & E). congruence.
  - destruct (V_grant _ _ V t r I) as (_ & _ & E). congruence.
Qed.
Lemma nodup_pend tr s : inv tr s -> NoDup (map fst (pending tr)).
Proof. intros V. apply (V_queue _ _ V). Qed.
Lemma nodup_both (a b : list Z) : NoDup (a ++ b) -> NoDup a /\ NoDup b /\ forall x, In x a -> ~ In x b.
Proof.
  induction a as [|y a IH]; cbn; [intros H; split; [constructor|]; split; [exact H|tauto]|]. intros H. apply NoDup_cons_iff in H as (N & H). destruct (IH H) as (A & B & C).
  rewrite in_app_iff in N. split; [constructor; tauto|]. split; [exact B|]. intros x [->|X]; [tauto|auto].
Qed.
Lemma nodup_grant tr s : inv tr s -> NoDup (map fst (granted tr)) /\ forall t, In t (map fst (pending tr)) -> ~ In t (map fst (granted tr)).
Proof. intros V. pose proof (V_nodup _ _ V) as N. rewrite map_app in N. apply nodup_both in N. tauto. Qed.
Lemma nonneg tr s : inv tr s -> 0 <= reading s /\ 0 <= writing s.
Proof.
  intros V. rewrite (V_reading _ _ V), (V_writing _ _ V). pose proof (count_nonneg READER (granted tr)). pose proof (count_nonneg WRITER (granted tr)). lia.
Qed.
Lemma pend_rw tr s : inv tr s -> forall t r, In (t, r) (pending tr) -> rw_role r.
Proof. intros V t r I. destruct (V_queue _ _ V) as (_ & D & _). apply (D t r I). Qed.

Lemma audit_if_ok s P : matches s P -> 0 <= reading s -> 0 <= writing s -> waiting s <= maximum s -> audit_if s = Some tt.
Proof.
  intros (Q & D & ND & W) R WR M. unfold audit_if. destruct (debugging s); [|reflexivity]. unfold audit.
  rewrite Q, map_length, <- W, Z.eqb_refl. rewrite W in *. destruct (Z.leb_spec 0 (reading s)); [|lia]. destruct (Z.leb_spec 0 (writing s)); [|lia].
  destruct (Z.leb_spec 0 (Z.of_nat (length P))); [|lia]. destruct (Z.leb_spec 0 (maximum s)); [|lia]. destruct (Z.leb_spec (Z.of_nat (length P)) (maximum s)); [|lia]. cbn [andb].
  assert (F : forallb (fun t => role_eqb (data s t) READER || role_eqb (data s t) WRITER || role_eqb (data s t) FAILED) (map fst P) = true); [|rewrite F; reflexivity].
  apply forallb_forall. intros t T. apply in_map_iff in T as ((x & r) & E & I). cbn in E. subst x. destruct (D t r I) as (DT & [->| ->]); rewrite DT; reflexivity.
Qed.

(** * A call that ends without having waited *)

Lemma trace_fail tr t r v : v <> 0 -> readers (tr ++ [Begun t r v]) = readers tr /\ writers (tr ++ [Begun t r v]) = writers tr.
Proof. intros H. rewrite readers_app, writers_app. cbn. destruct v; [contradiction| |]; destruct r; auto. Qed.
Lemma peak_quiet tr s e : inv tr s -> (match e with Maximal _ => False | _ => True end) -> (length (note_pending (pending tr) e) <= length (pending tr))%nat -> peak (tr ++ [e]) = peak tr.
Proof.
  intros V E L. rewrite peak_app. cbn [fold_left]. destruct (V_max _ _ V) as (M1 & M2). destruct (V_queue _ _ V) as (_ & _ & _ & W).
  unfold note_peak. cbn [fst snd]. destruct e; cbn [snd]; try contradiction; apply Z.max_l; lia.
Qed.

Lemma fail_inv tr s t r v : inv tr s -> waits s t = None -> v <> 0 -> inv (tr ++ [Begun t r v]) s.
Proof.
  intros V W NZ. destruct (none_out tr s t V W) as (N1 & N2). destruct (trace_fail tr t r v NZ) as (T1 & T2).
  assert (P : pending (tr ++ [Begun t r v]) = pending tr) by (rewrite pending_app; apply without_no, N1).
  assert (G : granted (tr ++ [Begun t r v]) = granted tr) by (rewrite granted_app; apply without_no, N2).
  assert (K : peak (tr ++ [Begun t r v]) = peak tr) by (apply (peak_quiet tr s); [exact V|exact I|cbn [note_pending]; rewrite without_no by exact N1; lia]).
  destruct V. constructor; rewrite ?P, ?G, ?T1, ?T2, ?K; auto.
Qed.

(** Data of threads that are not waiting do not matter. *)
Lemma data_inv tr s t v : inv tr s -> waits s t = None -> inv tr (dataset s t v).
Proof.
  intros V W. destruct (none_out tr s t V W) as (N1 & N2). destruct V as [V1 V2 V3 V4 V5 V6 V7 V8 V9 V10 V11]. constructor; auto; cbn.
  - destruct V1 as (Q & D & ND & WW). split; [exact Q|]. split; [|split; assumption]. intros x r I. cbn. rewrite set_other; [apply D, I|].
    intros ->. apply N1, in_map_iff. exists (t, r). auto.
  - intros x r I. rewrite set_other; [apply V3, I|]. intros ->. apply N2, in_map_iff. exists (t, r). auto.
Qed.

(** * Waiting *)

Lemma enqueue_ok s t r pr P : matches s P -> ~ In t (map fst P) -> rw_role r -> Z.of_nat (length P) < LIMIT ->
  exists s', enqueue (dataset s t r) t pr = Some s' /\ matches s' (if pr then (t, r) :: P else P ++ [(t, r)]) /\
    data s' = set (data s) t r /\ maximum s' = Z.max (maximum s) (Z.of_nat (length P) + 1) /\ reading s' = reading s /\ writing s' = writing s /\
    debugging s' = debugging s /\ waits s' = waits s.
Proof.
  intros (Q & D & ND & W) N RW LI. unfold LIMIT in LI. unfold enqueue. cbn [waiting dataset with_data]. rewrite W, ck_s32_ok by lia. cbn [bind].
  cbn [maximum waiting with_waiting with_data].
  assert (F : front (set (data s) t r) (queue s) = ([], queue s)).
  { rewrite Q. destruct P as [|(x & y) P]; [reflexivity|]. cbn [map fst front]. rewrite set_other by (intros ->; apply N; left; reflexivity).
    destruct (D x y (or_introl eq_refl)) as (DX & [->| ->]); rewrite DX; reflexivity. }
  assert (DD : forall x y, In (x, y) P -> set (data s) t r x = y /\ rw_role y).
  { intros x y I. rewrite set_other; [apply D, I|]. intros ->. apply N, in_map_iff. exists (t, y). auto. }
  set (m := if maximum s <? Z.of_nat (length P) + 1 then Z.of_nat (length P) + 1 else maximum s).
  assert (MM : m = Z.max (maximum s) (Z.of_nat (length P) + 1)) by (unfold m; destruct (Z.ltb_spec (maximum s) (Z.of_nat (length P) + 1)); lia).
  exists (Rw (if pr then t :: queue s else queue s ++ [t]) (set (data s) t r) (Z.of_nat (length P) + 1) m (reading s) (writing s) (debugging s) (waits s)).
  split.
  { unfold m. clear m MM. cbv zeta. cbn [dataset with_data with_waiting with_maximum with_queue queue data waiting maximum reading writing debugging waits].
    destruct (maximum s <? Z.of_nat (length P) + 1), pr; cbn [dataset with_data with_waiting with_maximum with_queue queue data waiting maximum reading writing debugging waits]; rewrite ?F; reflexivity. }
  cbn. split; [|auto 10]. unfold matches. cbn [queue data waiting]. rewrite Q. destruct pr.
  - split; [reflexivity|]. split; [|split; [constructor; assumption|cbn [length]; lia]]. intros x y [I|I]; [|apply DD, I]. injection I as <- <-. rewrite set_same. auto.
  - split; [rewrite map_app; reflexivity|]. split; [|split; [rewrite map_app; cbn [map fst]|rewrite app_length; cbn [length]; lia]].
    + intros x y I. apply in_app_or in I as [I|[I|[]]]; [apply DD, I|]. injection I as <- <-. rewrite set_same. auto.
    + apply NoDup_rev in ND. rewrite <- (rev_involutive (map fst P ++ [t])). apply NoDup_rev. rewrite rev_app_distr. cbn. constructor; [rewrite <- in_rev; exact N|exact ND].
Qed.

Definition added (pr : bool) (t : Z) (r : role) (P : list (Z * role)) : list (Z * role) := if pr then (t, r) :: P else P ++ [(t, r)].
Lemma added_in pr t r P x y : In (x, y) (added pr t r P) <-> (x, y) = (t, r) \/ In (x, y) P.
Proof. destruct pr; cbn; [|rewrite in_app_iff; cbn]; intuition congruence. Qed.
Lemma added_length pr t r P : length (added pr t r P) = S (length P).
Proof. destruct pr; [reflexivity|]. cbn. rewrite app_length. cbn. lia. Qed.
Lemma added_pending tr t r pr : pending (tr ++ [Waits t r pr]) = added pr t r (pending tr).
Proof. rewrite pending_app. destruct pr; reflexivity. Qed.

Lemma wait_inv tr s t r pr s' : inv tr s -> waits s t = None -> rw_role r -> 0 < reading s + writing s ->
  reading s + Z.of_nat (length (pending tr)) < LIMIT -> enqueue (dataset s t r) t pr = Some s' ->
  inv (tr ++ [Waits t r pr]) (with_waits (set (waits s') t (Some (r, false))) s').
Proof.
  intros V W RW BUSY LI E. destruct (none_out tr s t V W) as (N1 & N2). pose proof (nonneg tr s V) as (R0 & W0).
  destruct (enqueue_ok s t r pr (pending tr) (V_queue _ _ V) N1 RW ltac:(lia)) as (s2 & E2 & M & D & MX & R & WR & DB & WT). rewrite E in E2. injection E2 as <-.
  assert (P := added_pending tr t r pr).
  assert (G : granted (tr ++ [Waits t r pr]) = granted tr) by (rewrite granted_app; reflexivity).
  assert (T1 : readers (tr ++ [Waits t r pr]) = readers tr) by (rewrite readers_app; reflexivity).
  assert (T2 : writers (tr ++ [Waits t r pr]) = writers tr) by (rewrite writers_app; reflexivity).
  assert (K : peak (tr ++ [Waits t r pr]) = Z.max (peak tr) (Z.of_nat (length (pending tr)) + 1)).
  { rewrite peak_app. cbn [fold_left]. unfold note_peak. cbn [snd fst].
    assert (L : length (note_pending (pending tr) (Waits t r pr)) = S (length (pending tr))) by (exact (added_length pr t r (pending tr))).
    rewrite L. lia. }
  destruct V as [V1 V2 V3 V4 V5 V6 V7 V8 V9 V10 V11]. destruct V6 as (V6 & V6b). constructor; rewrite ?P, ?G, ?T1, ?T2, ?K; cbn [queue data waiting maximum reading writing waits with_waits].
  - exact M.
  - intros x y I. apply added_in in I as [I|I].
    + injection I as <- <-. rewrite set_same. eauto.
    + rewrite set_other, WT; [apply V2, I|]. intros ->. apply N1, in_map_iff. exists (t, y). auto.
  - intros x y I. assert (x <> t) by (intros ->; apply N2, in_map_iff; exists (t, y); auto). rewrite set_other by assumption. rewrite WT, D, set_other by assumption. apply V3, I.
  - assert (ND := V4). rewrite map_app in *. destruct pr; cbn [added map fst app].
    + constructor; [|exact ND]. rewrite in_app_iff. tauto.
    + rewrite map_app, <- app_assoc. cbn [map fst app]. apply NoDup_Add with (a := t) (l := map fst (pending tr) ++ map fst (granted tr)); [apply Add_app|]. split; [exact ND|rewrite in_app_iff; tauto].
  - intros x y w. destruct (Z.eq_dec x t) as [->|NE].
    + rewrite set_same. intros X. injection X as <- <-. left. apply added_in. auto.
    + rewrite set_other by exact NE. rewrite WT. intros X. destruct (V5 _ _ _ X); [left; apply added_in; auto|auto].
  - destruct M as (_ & _ & _ & M4). split; [lia|]. fold (added pr t r (pending tr)) in M4. rewrite added_length in M4. lia.
  - rewrite R. exact V7.
  - rewrite WR. exact V8.
  - rewrite R, WR. exact V9.
  - rewrite R, WR. intros _. exact BUSY.
  - rewrite R, added_length. lia.
Qed.

(** Giving up. *)
Lemma giveup_inv tr s t r w v : inv tr s -> waits s t = Some (r, w) -> In (t, r) (pending tr) -> v <> 0 ->
  exists s', dequeue (with_waits (set (waits s) t None) s) t = Some s' /\ inv (tr ++ [Begun t r v]) (dataset s' t RUNNING).
Proof.
  intros V W I NZ. pose proof (nonneg tr s V) as (R0 & W0). pose proof (V_limit _ _ V) as LI.
  destruct (dequeue_ok (with_waits (set (waits s) t None) s) t r (pending tr)) as (s' & E & M & D & MX & R & WR & DB & WT); [exact (V_queue _ _ V)|exact I|lia|].
  exists s'. split; [exact E|]. destruct (nodup_grant tr s V) as (NG & DJ). assert (N2 : ~ In t (map fst (granted tr))) by (apply DJ, in_map_iff; exists (t, r); auto).
  destruct (trace_fail tr t r v NZ) as (T1 & T2). pose proof (nodup_pend tr s V) as NP. pose proof (length_without t r (pending tr) NP I) as L.
  assert (P : pending (tr ++ [Begun t r v]) = without t (pending tr)) by (rewrite pending_app; reflexivity).
  assert (G : granted (tr ++ [Begun t r v]) = granted tr) by (rewrite granted_app; apply without_no, N2).
  assert (K : peak (tr ++ [Begun t r v]) = peak tr) by (apply (peak_quiet tr s); [exact V|exact Logic.I|cbn [note_pending]; lia]).
  cbn in D, MX, R, WR, DB, WT. destruct V as [V1 V2 V3 V4 V5 V6 V7 V8 V9 V10 V11]. destruct V6 as (V6 & V6b).
  constructor; rewrite ?P, ?G, ?T1, ?T2, ?K; cbn [queue data waiting maximum reading writing waits dataset with_data].
  - destruct M as (Q & DD & ND & WW). split; [exact Q|]. split; [|split; assumption]. intros x y X. pose proof X as X2. apply without_in in X2 as (_ & NE). cbn. rewrite set_other by exact NE. apply DD, X.
  - intros x y X. apply without_in in X as (X & NE). rewrite WT, set_other by exact NE. apply V2, X.
  - intros x y X. assert (x <> t) by (intros ->; apply N2, in_map_iff; exists (t, y); auto). rewrite WT, D, !set_other by assumption. apply V3, X.
  - rewrite map_app in *. rewrite without_fst. apply nodup_both in V4 as (A & B & C). clear - A B C. induction (map fst (pending tr)) as [|z l IH]; [exact B|].
    cbn [filter]. apply NoDup_cons_iff in A as (A1 & A2). assert (C' : forall x, In x l -> ~ In x (map fst (granted tr))) by (intros; apply C; right; assumption).
    destruct (negb (z =? t)); [|apply IH; assumption]. cbn [app]. constructor; [|apply IH; assumption]. rewrite in_app_iff, filter_In. specialize (C z (or_introl eq_refl)). tauto.
  - intros x y u. rewrite WT. destruct (Z.eq_dec x t) as [->|NE]; [rewrite set_same; discriminate|]. rewrite set_other by exact NE. intros X.
    destruct (V5 _ _ _ X) as [Y|Y]; [left; apply without_in; auto|auto].
  - split; [congruence|]. destruct M as (_ & _ & _ & M4). destruct V1 as (_ & _ & _ & V1d). rewrite MX, M4. lia.
  - rewrite R. exact V7.
  - rewrite WR. exact V8.
  - rewrite R, WR. exact V9.
  - rewrite R, WR. intros X. apply V10. intros Y. apply X. rewrite Y. reflexivity.
  - rewrite R. lia.
Qed.

(** A thread that has been given the lock returns. *)
Lemma trace_ok tr t r : rw_role r ->
  readers (tr ++ [Begun t r 0]) = (if role_eqb READER r then [t] else []) ++ readers tr /\
  writers (tr ++ [Begun t r 0]) = (if role_eqb WRITER r then [t] else []) ++ writers tr.
Proof. intros [->| ->]; rewrite readers_app, writers_app; split; reflexivity. Qed.

Lemma granted_inv tr s t r w : inv tr s -> waits s t = Some (r, w) -> In (t, r) (granted tr) ->
  inv (tr ++ [Begun t r 0]) (dataset (with_waits (set (waits s) t None) s) t RUNNING).
Proof.
  intros V W I. destruct (nodup_grant tr s V) as (NG & DJ). destruct (V_grant _ _ V t r I) as (_ & RW & _).
  assert (N1 : ~ In t (map fst (pending tr))). { intros X. apply (DJ t X). apply in_map_iff. exists (t, r). auto. }
  destruct (trace_ok tr t r RW) as (T1 & T2).
  assert (P : pending (tr ++ [Begun t r 0]) = pending tr) by (rewrite pending_app; apply without_no, N1).
  assert (G : granted (tr ++ [Begun t r 0]) = without t (granted tr)) by (rewrite granted_app; reflexivity).
  assert (K : peak (tr ++ [Begun t r 0]) = peak tr) by (apply (peak_quiet tr s); [exact V|exact Logic.I|cbn [note_pending]; rewrite without_no by exact N1; lia]).
  pose proof (count_without t r READER (granted tr) NG I) as C1. pose proof (count_without t r WRITER (granted tr) NG I) as C2.
  destruct V as [V1 V2 V3 V4 V5 V6 V7 V8 V9 V10 V11].
  constructor; rewrite ?P, ?G, ?T1, ?T2, ?K; cbn [queue data waiting maximum reading writing waits dataset with_data with_waits]; auto.
  - destruct V1 as (Q & D & ND & WW). split; [exact Q|]. split; [|split; assumption]. intros x y X. cbn. rewrite set_other; [apply D, X|]. intros ->. apply N1, in_map_iff. exists (t, y). auto.
  - intros x y X. rewrite set_other; [apply V2, X|]. intros ->. apply N1, in_map_iff. exists (t, y). auto.
  - intros x y X. apply without_in in X as (X & NE). rewrite !set_other by exact NE. apply V3, X.
  - rewrite map_app in *. rewrite without_fst. apply nodup_both in V4 as (A & B & C). clear - A B C. induction (map fst (pending tr)) as [|z l IH]; [apply NoDup_filter, B|].
    cbn [app]. apply NoDup_cons_iff in A as (A1 & A2). constructor; [|apply IH; [exact A2|intros; apply C; right; assumption]]. rewrite in_app_iff, filter_In. specialize (C z (or_introl eq_refl)). tauto.
  - intros x y u. destruct (Z.eq_dec x t) as [->|NE]; [rewrite set_same; discriminate|]. rewrite set_other by exact NE. intros X.
    destruct (V5 _ _ _ X) as [Y|Y]; [auto|right; apply without_in; auto].
  - rewrite app_length. destruct (role_eqb READER r); cbn [length]; lia.
  - rewrite app_length. destruct (role_eqb WRITER r); cbn [length]; lia.
Qed.

(** A wait that goes on. *)
Lemma again_inv tr s t r w : inv tr s -> waits s t = Some (r, w) -> In (t, r) (pending tr) -> inv tr (with_waits (set (waits s) t (Some (r, false))) s).
Proof.
  intros V W I. destruct (nodup_grant tr s V) as (NG & DJ). assert (N2 : ~ In t (map fst (granted tr))) by (apply DJ, in_map_iff; exists (t, r); auto).
  destruct V as [V1 V2 V3 V4 V5 V6 V7 V8 V9 V10 V11]. constructor; auto; cbn [waits with_waits data].
  - intros x y X. destruct (Z.eq_dec x t) as [->|NE]; [|rewrite set_other by exact NE; apply V2, X]. rewrite set_same. destruct (V2 t y X). exists false. congruence.
  - intros x y X. rewrite set_other; [apply V3, X|]. intros ->. apply N2, in_map_iff. exists (t, y). auto.
  - intros x y u. destruct (Z.eq_dec x t) as [->|NE]; [rewrite set_same; intros X; injection X as <- <-; auto|]. rewrite set_other by exact NE. apply V5.
Qed.
