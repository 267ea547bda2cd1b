(** Proofs about the reader writer locks. *)

From Coq Require Import ZArith List Bool Lia.
From Verif Require Import CInt CUtil ReaderwriterModel ReaderwriterSpec.
Import ListNotations.
Local Open Scope Z_scope.

Lemma role_eqb_eq a b : role_eqb a b = true <-> a = b.
Proof. destruct a, b; cbn; split; congruence. Qed.
Lemma role_eqb_refl a : role_eqb a a = true.
Proof. destruct a; reflexivity. Qed.
Lemma set_same {A} (f : Z -> A) t v : set f t v t = v.
Proof. unfold set. rewrite Z.eqb_refl. reflexivity. Qed.
Lemma set_other {A} (f : Z -> A) t v x : x <> t -> set f t v x = f x.
Proof. intros H. unfold set. destruct (Z.eqb_spec x t); [contradiction|reflexivity]. Qed.
Lemma ck_s32_ok x : -2147483648 <= x < 2147483648 -> ck_s32 x = Some x.
Proof. intros H. unfold ck_s32. destruct (Z.leb_spec (-2147483648) x), (Z.ltb_spec x 2147483648); cbn; try lia; reflexivity. Qed.

(** * The trace *)

Lemma readers_app a b : readers (a ++ b) = fold_left note_reader b (readers a).
Proof. apply fold_left_app. Qed.
Lemma writers_app a b : writers (a ++ b) = fold_left note_writer b (writers a).
Proof. apply fold_left_app. Qed.
Lemma pending_app a b : pending (a ++ b) = fold_left note_pending b (pending a).
Proof. apply fold_left_app. Qed.
Lemma granted_app a b : granted (a ++ b) = fold_left note_granted b (granted a).
Proof. apply fold_left_app. Qed.
Lemma peak_pending : forall l p m, fst (fold_left note_peak l (p, m)) = fold_left note_pending l p.
Proof. induction l as [|e l IH]; intros p m; [reflexivity|]. cbn [fold_left]. rewrite <- (IH _ (snd (note_peak (p, m) e))). f_equal. f_equal. destruct e; reflexivity. Qed.
Lemma peak_app a b : peak (a ++ b) = snd (fold_left note_peak b (pending a, peak a)).
Proof.
  unfold peak. rewrite fold_left_app. f_equal. f_equal. rewrite (surjective_pairing (fold_left note_peak a ([], 0))) at 1. rewrite peak_pending. reflexivity.
Qed.

Definition grant (p : Z * role) : event := Grants (fst p) (snd p).

Lemma without_in t l t' r : In (t', r) (without t l) <-> In (t', r) l /\ t' <> t.
Proof. unfold without. rewrite filter_In. cbn. destruct (Z.eqb_spec t' t); cbn; intuition congruence. Qed.
Lemma without_no t l : ~ In t (map fst l) -> without t l = l.
Proof.
  unfold without. induction l as [|(x & r) l IH]; cbn; [reflexivity|]. intros H. destruct (Z.eqb_spec x t); [tauto|]. cbn. rewrite IH by tauto. reflexivity.
Qed.
Lemma without_fst t l : map fst (without t l) = filter (fun x => negb (x =? t)) (map fst l).
Proof. unfold without. induction l as [|(x & r) l IH]; cbn; [reflexivity|]. destruct (x =? t); cbn; rewrite IH; reflexivity. Qed.
Lemma without_not t l : ~ In t (map fst (without t l)).
Proof. intros H. apply in_map_iff in H as ((x & r) & X & Y). cbn in X. subst. apply without_in in Y. tauto. Qed.
Lemma nodup_without t l : NoDup (map fst l) -> NoDup (map fst (without t l)).
Proof. intros H. rewrite without_fst. apply NoDup_filter, H. Qed.
Lemma length_without t r l : NoDup (map fst l) -> In (t, r) l -> length l = S (length (without t l)).
Proof.
  induction l as [|(x & q) l IH]; cbn; [tauto|]. intros ND I. apply NoDup_cons_iff in ND as (N & ND). destruct (Z.eqb_spec x t) as [->|NE]; cbn.
  - fold (without t l). rewrite without_no by exact N. reflexivity.
  - fold (without t l). destruct I as [I|I]; [congruence|]. rewrite <- IH by assumption. reflexivity.
Qed.

Lemma pend_grants : forall A P, NoDup (map fst (A ++ P)) -> fold_left note_pending (map grant A) (A ++ P) = P.
Proof.
  induction A as [|(t & r) A IH]; intros P ND; [reflexivity|]. cbn [map fold_left app fst] in *. cbn [note_pending grant fst]. inversion ND as [|? ? N ND']; subst.
  assert (W : without t ((t, r) :: A ++ P) = A ++ P). { cbn. rewrite Z.eqb_refl. cbn. apply without_no, N. }
  rewrite W. apply IH, ND'.
Qed.
Lemma grant_grants : forall A g, fold_left note_granted (map grant A) g = rev A ++ g.
Proof. induction A as [|(t & r) A IH]; intros g; [reflexivity|]. cbn [map fold_left rev note_granted grant fst snd]. rewrite IH, <- app_assoc. reflexivity. Qed.
Lemma read_grants : forall A g, fold_left note_reader (map grant A) g = g.
Proof. induction A; intros; cbn; auto. Qed.
Lemma write_grants : forall A g, fold_left note_writer (map grant A) g = g.
Proof. induction A; intros; cbn; auto. Qed.
Lemma peak_grants : forall A p m, Z.of_nat (length p) <= m -> snd (fold_left note_peak (map grant A) (p, m)) = m.
Proof.
  induction A as [|(t & r) A IH]; intros p m H; [reflexivity|]. cbn [map fold_left grant fst snd note_peak note_pending].
  assert (L : (length (without t p) <= length p)%nat) by (unfold without; clear; induction p as [|a p IHp]; cbn; [lia|destruct (negb _); cbn; lia]).
  rewrite (Z.max_l m) by lia. apply IH. lia.
Qed.

(** * Batches *)

Fixpoint trailing (l : list (Z * role)) : list (Z * role) :=
  match l with (t, READER) :: l' => trailing l' | _ => l end.
Lemma leading_split : forall l, l = leading l ++ trailing l.
Proof. induction l as [|(t & r) l IH]; [reflexivity|]. destruct r; try reflexivity. cbn. rewrite <- IH. reflexivity. Qed.
Lemma leading_readers : forall l t r, In (t, r) (leading l) -> r = READER.
Proof.
  induction l as [|(x & q) l IH]; cbn; [tauto|]. intros t r. destruct q; cbn; try tauto. intros [H|H]; [congruence|]. eauto.
Qed.
Definition later (l : list (Z * role)) : list (Z * role) := match l with (_, WRITER) :: l' => l' | _ => trailing l end.
Lemma batch_split l : l = next_batch l ++ later l.
Proof. destruct l as [|(t & r) l]; [reflexivity|]. destruct r; try apply leading_split. Qed.

Definition rw_role (r : role) : Prop := r = READER \/ r = WRITER.
Definition count (r : role) (l : list (Z * role)) : Z := Z.of_nat (length (filter (fun p => role_eqb r (snd p)) l)).

Lemma count_cons q t r l : count q ((t, r) :: l) = (if role_eqb q r then 1 else 0) + count q l.
Proof. unfold count. cbn [filter snd]. destruct (role_eqb q r); cbn [length]; lia. Qed.
Lemma count_app r a b : count r (a ++ b) = count r a + count r b.
Proof. unfold count. rewrite filter_app, app_length. lia. Qed.
Lemma count_rev r a : count r (rev a) = count r a.
Proof. induction a as [|x a IH]; [reflexivity|]. cbn [rev]. rewrite count_app, IH. change (x :: a) with ([x] ++ a). rewrite count_app. lia. Qed.
Lemma count_leading : forall l, count READER (leading l) = Z.of_nat (length (leading l)) /\ count WRITER (leading l) = 0.
Proof.
  induction l as [|(t & r) l IH]; [split; reflexivity|]. destruct r; try (split; reflexivity). cbn [leading]. rewrite !count_cons. cbn [role_eqb length]. lia.
Qed.
Lemma count_nonneg r l : 0 <= count r l.
Proof. unfold count. lia. Qed.
Lemma count_le r l : count r l <= Z.of_nat (length l).
Proof. unfold count. induction l as [|x l IH]; cbn; [lia|]. destruct (role_eqb r (snd x)); cbn [length]; lia. Qed.
Lemma count_without t r q l : NoDup (map fst l) -> In (t, r) l -> count q l = count q (without t l) + (if role_eqb q r then 1 else 0).
Proof.
  induction l as [|(x & y) l IH]; cbn [map fst In]; [tauto|]. intros ND I. apply NoDup_cons_iff in ND as (N & ND). unfold count in *. cbn [without filter fst snd].
  destruct (Z.eqb_spec x t) as [->|NE]; cbn [negb].
  - fold (without t l). rewrite without_no by exact N. destruct I as [I|I]; [|exfalso; apply N; apply in_map_iff; exists (t, r); auto].
    injection I as ->. destruct (role_eqb q r); cbn [length]; lia.
  - fold (without t l). destruct I as [I|I]; [congruence|]. specialize (IH ND I). cbn [filter fst snd]. destruct (role_eqb q y); cbn [length]; lia.
Qed.

(** * The queue *)

Definition matches (s : rw) (P : list (Z * role)) : Prop :=
  queue s = map fst P /\ (forall t r, In (t, r) P -> data s t = r /\ rw_role r) /\ NoDup (map fst P) /\ waiting s = Z.of_nat (length P).

Lemma head_ok s P : matches s P -> head s = Some (s, match P with [] => None | (t, _) :: _ => Some t end).
Proof.
  intros (Q & D & _). unfold head. rewrite Q. destruct P as [|(t & r) P]; cbn [map length fst]; unfold head_from; rewrite Q; cbn [map fst]; [reflexivity|].
  destruct (D t r (or_introl eq_refl)) as (DT & [->| ->]); rewrite DT; reflexivity.
Qed.

Lemma dequeue_ok s t r P : matches s P -> In (t, r) P -> Z.of_nat (length P) <= LIMIT ->
  exists s', dequeue s t = Some s' /\ matches s' (without t P) /\ data s' = data s /\ maximum s' = maximum s /\ reading s' = reading s /\
    writing s' = writing s /\ debugging s' = debugging s /\ waits s' = waits s.
Proof.
  intros (Q & D & ND & W) I LI. unfold LIMIT in *. unfold dequeue. cbn [waiting with_queue]. pose proof (length_without t r P ND I) as L.
  rewrite ck_s32_ok by lia. cbn [bind]. eexists. split; [reflexivity|]. cbn. split; [|auto 10]. split; [cbn; rewrite Q, without_fst; reflexivity|].
  split; [|split; [apply nodup_without, ND|cbn; lia]]. cbn. intros t' r' I'. apply without_in in I' as (I' & _). apply D, I'.
Qed.

Definition same_rest (s s' : rw) : Prop := maximum s' = maximum s /\ debugging s' = debugging s /\ waits s' = waits s.

Lemma give_ok s t r P v : matches s ((t, r) :: P) -> Z.of_nat (length ((t, r) :: P)) <= LIMIT ->
  exists s', dequeue s t = Some s' /\ matches (dataset s' t v) P /\
    (data (dataset s' t v) t = v) /\ (forall x, x <> t -> data (dataset s' t v) x = data s x) /\
    reading s' = reading s /\ writing s' = writing s /\ same_rest s s'.
Proof.
  intros M LI. destruct (dequeue_ok s t r _ M (or_introl eq_refl) LI) as (s' & E & M' & D & E1 & E2 & E3 & E4 & E5). exists s'. split; [exact E|].
  destruct M as (Q & DD & ND & W). cbn [map fst] in ND. apply NoDup_cons_iff in ND as (N & ND).
  assert (WO : without t ((t, r) :: P) = P). { cbn. rewrite Z.eqb_refl. cbn. apply without_no, N. }
  rewrite WO in M'. split; [|split; [|split; [|repeat split; assumption]]].
  - destruct M' as (Q' & D' & ND' & W'). split; [exact Q'|]. split; [|split; assumption]. intros t' r' I'. cbn [data dataset with_data].
    rewrite set_other; [apply D', I'|]. intros ->. apply N. apply in_map_iff. exists (t, r'). auto.
  - cbn. apply set_same.
  - intros x X. cbn. rewrite set_other by exact X. rewrite D. reflexivity.
Qed.

Lemma resume_readers : forall P n s cp res l,
  matches s P -> (length P <= n)%nat -> 0 <= reading s -> reading s + Z.of_nat (length P) <= LIMIT ->
  exists s', resume_loop n s READER cp res l =
      Some (s', match leading P with [] => cp | _ => Some READER end, match leading P with [] => res | _ => READER end, l ++ map grant (leading P)) /\
    matches s' (trailing P) /\
    (forall t r, In (t, r) (leading P) -> data s' t = READABLE) /\ (forall x, ~ In x (map fst (leading P)) -> data s' x = data s x) /\
    reading s' = reading s + Z.of_nat (length (leading P)) /\ writing s' = writing s /\ same_rest s s'.
Proof.
  induction P as [|(t & r) P IH]; intros n s cp res l M LE R0 RL.
  - exists s. cbn [leading trailing map length app]. rewrite app_nil_r. destruct n; cbn [resume_loop]; rewrite (head_ok s [] M); cbn [bind];
    (split; [reflexivity|]; split; [exact M|]; split; [intros ? ? []|]; split; [reflexivity|]; split; [lia|]; split; [reflexivity|]; split; [reflexivity|split; reflexivity]).
  - assert (RW : data s t = r /\ rw_role r) by (apply M; left; reflexivity). destruct RW as (DT & RW).
    destruct n as [|n]; [cbn in LE; lia|]. cbn [resume_loop]. rewrite (head_ok s _ M). cbn [bind]. rewrite DT. cbn [length] in *. unfold LIMIT in *.
    destruct RW as [->| ->]; cbn [role_eqb andb orb].
    + destruct (give_ok s t READER P READABLE M) as (s1 & E1 & M1 & D1 & D2 & R1 & W1 & S1); [cbn [length]; unfold LIMIT; lia|].
      rewrite E1. cbn [bind]. change (reading (dataset s1 t READABLE)) with (reading s1). rewrite R1, ck_s32_ok by lia. cbn [bind].
      set (s2 := with_reading (reading s + 1) (dataset s1 t READABLE)).
      destruct (IH n s2 (Some READER) READER (l ++ [Grants t READER])) as (s' & E2 & M2 & D3 & D4 & R2 & W2 & S2); [exact M1|lia|cbn; lia|cbn; lia|].
      exists s'. split.
      * rewrite E2. cbn [leading map]. rewrite <- app_assoc. destruct (leading P); reflexivity.
      * cbn [leading trailing map fst length In]. split; [exact M2|]. split.
        { intros t' r' [I'|I']; [|eauto]. injection I' as <- <-. destruct (in_dec Z.eq_dec t (map fst (leading P))) as [I2|I2].
          - apply in_map_iff in I2 as ((t2 & r2) & EQ & I2). cbn in EQ. subst t2. eauto.
          - rewrite D4 by exact I2. exact D1. }
        split. { intros x X. rewrite D4 by tauto. apply D2. intros ->. tauto. }
        split; [rewrite R2; cbn [reading with_reading s2]; lia|]. split; [rewrite W2; exact W1|].
        destruct S1 as (A1 & A2 & A3), S2 as (B1 & B2 & B3). split; [rewrite B1; exact A1|]. split; [rewrite B2; exact A2|rewrite B3; exact A3].
    + exists s. cbn [leading trailing map length]. rewrite app_nil_r.
      split; [reflexivity|]. split; [exact M|]. split; [intros ? ? []|]. split; [reflexivity|]. split; [lia|]. split; [reflexivity|]. split; [reflexivity|split; reflexivity].
Qed.

Lemma resume_ok s P : matches s P -> reading s = 0 -> writing s = 0 -> Z.of_nat (length P) <= LIMIT ->
  exists s' res, resume s ANY = Some (s', res, map grant (next_batch P)) /\ (res = NONE \/ res = READER \/ res = WRITER) /\
    matches s' (later P) /\
    (forall t r, In (t, r) (next_batch P) -> data s' t = pend r) /\ (forall x, ~ In x (map fst (next_batch P)) -> data s' x = data s x) /\
    reading s' = count READER (next_batch P) /\ writing s' = count WRITER (next_batch P) /\
    maximum s' = maximum s /\ debugging s' = debugging s /\
    (forall t, waits s t = None -> waits s' t = None) /\
    (forall t r w, waits s t = Some (r, w) -> exists w', waits s' t = Some (r, w') /\ (w = true -> w' = true)) /\
    (forall t r w, In (t, r) (next_batch P) -> waits s t = Some (r, w) -> waits s' t = Some (r, true)).
Proof.
  intros M R0 W0 LI. unfold resume. pose proof M as (Q & _). rewrite Q, map_length.
  assert (BC : forall s c t r w, waits s t = Some (r, w) -> exists w', waits (broadcast s c) t = Some (r, w') /\ (w = true -> w' = true)).
  { intros s0 c t r w H. cbn. rewrite H. eexists. split; [reflexivity|]. intros ->. reflexivity. }
  assert (BN : forall s c t, waits s t = None -> waits (broadcast s c) t = None) by (intros s0 c t H; cbn; rewrite H; reflexivity).
  assert (BG : forall s c t w, waits s t = Some (c, w) -> waits (broadcast s c) t = Some (c, true)).
  { intros s0 c t w H. cbn. rewrite H, role_eqb_refl, orb_true_r. reflexivity. }
  destruct P as [|(t & r) P].
  - exists s, NONE. cbn [length resume_loop]. rewrite (head_ok s [] M). cbn [bind next_batch leading map later trailing]. split; [reflexivity|]. split; [auto|]. split; [exact M|].
    split; [intros ? ? []|]. split; [reflexivity|]. split; [exact R0|]. split; [exact W0|]. split; [reflexivity|]. split; [reflexivity|]. split; [auto|]. split; [eauto|intros ? ? ? []].
  - assert (RW : data s t = r /\ rw_role r) by (apply M; left; reflexivity). destruct RW as (DT & RW). cbn [length] in *.
    cbn [resume_loop]. rewrite (head_ok s _ M). cbn [bind]. rewrite DT. destruct RW as [->| ->]; cbn [role_eqb andb orb].
    + destruct (give_ok s t READER P READABLE M) as (s1 & E1 & M1 & D1 & D2 & R1 & W1 & S1); [cbn [length]; lia|].
      rewrite E1. cbn [bind]. change (reading (dataset s1 t READABLE)) with (reading s1). rewrite R1, R0, ck_s32_ok by lia. cbn [bind].
      set (s2 := with_reading (0 + 1) (dataset s1 t READABLE)).
      destruct (resume_readers P (length P) s2 (Some READER) READER ([] ++ [Grants t READER])) as (s' & E2 & M2 & D3 & D4 & R2 & W2 & S2); [exact M1|lia|cbn; lia|change (reading s2) with (0 + 1); lia|].
      rewrite E2. cbn [bind]. destruct S1 as (A1 & A2 & A3), S2 as (B1 & B2 & B3). cbn [s2 maximum debugging waits with_reading dataset with_data] in B1, B2, B3.
      exists (broadcast s' READER), READER. cbn [next_batch leading later trailing].
      split; [destruct (leading P); reflexivity|].
      split; [auto|]. split; [exact M2|]. destruct (count_leading P) as (CL1 & CL2). change (data (broadcast s' READER)) with (data s').
      assert (DATA : forall t' r', In (t', r') ((t, READER) :: leading P) -> data s' t' = pend r').
      { intros t' r' [I'|I'].
        - injection I' as <- <-. cbn [pend role_eqb]. destruct (in_dec Z.eq_dec t (map fst (leading P))) as [I2|I2].
          + apply in_map_iff in I2 as ((t2 & r2) & EQ & I2). cbn in EQ. subst t2. eauto.
          + rewrite D4 by exact I2. exact D1.
        - rewrite (leading_readers _ _ _ I'). cbn [pend role_eqb]. eauto. }
      split; [exact DATA|]. split. { intros x X. cbn [map fst In] in X. rewrite D4 by tauto. apply D2. intros ->. tauto. }
      split; [cbn [reading broadcast with_waits]; rewrite R2; rewrite count_cons; cbn [role_eqb]; cbn [reading with_reading s2]; lia|].
      split; [cbn [writing broadcast with_waits]; rewrite W2; cbn [writing with_reading dataset with_data s2]; rewrite W1, W0; rewrite count_cons; cbn [role_eqb]; lia|].
      split; [cbn; congruence|]. split; [cbn; congruence|]. split; [intros x X; apply BN; congruence|]. split; [intros x y w X; apply (BC s' READER x y w); congruence|].
      intros x y w X1 X2. assert (y = READER) by (destruct X1 as [X1|X1]; [congruence|exact (leading_readers _ _ _ X1)]). subst y. apply (BG s' READER x w). congruence.
    + destruct (give_ok s t WRITER P WRITABLE M) as (s1 & E1 & M1 & D1 & D2 & R1 & W1 & S1); [cbn [length]; lia|].
      rewrite E1. cbn [bind app]. change (writing (dataset s1 t WRITABLE)) with (writing s1). rewrite W1, W0. change (s8 (0 + 1)) with 1.
      set (s' := with_writing 1 (dataset s1 t WRITABLE)). destruct S1 as (A1 & A2 & A3). exists (broadcast s' WRITER), WRITER. cbn [next_batch later map].
      split; [reflexivity|]. split; [auto|]. split; [exact M1|]. split. { intros t' r' [I'|[]]. injection I' as <- <-. exact D1. }
      split. { intros x X. apply D2. intros ->. apply X. left. reflexivity. }
      split; [cbn; lia|]. split; [reflexivity|]. split; [exact A1|]. split; [exact A2|]. split; [intros x X; apply BN; cbn; congruence|].
      split; [intros x y w X; apply (BC s' WRITER x y w); cbn; congruence|]. intros x y w [X1|[]] X2. injection X1 as <- <-. apply (BG s' WRITER t w). cbn. congruence.
Qed.

Lemma later_all P : (forall t r, In (t, r) P -> rw_role r) -> next_batch P = [] -> P = [].
Proof.
  intros H B. destruct P as [|(t & r) P]; [reflexivity|]. destruct (H t r (or_introl eq_refl)) as [->| ->]; cbn in B; discriminate.
Qed.
Lemma batch_counts P : (forall t r, In (t, r) P -> rw_role r) ->
  (count WRITER (next_batch P) = 0 \/ (count WRITER (next_batch P) = 1 /\ count READER (next_batch P) = 0)) /\
  count READER (next_batch P) + count WRITER (next_batch P) = Z.of_nat (length (next_batch P)).
Proof.
  intros H. destruct P as [|(t & r) P]; [cbn; auto|]. destruct (H t r (or_introl eq_refl)) as [->| ->]; cbn [next_batch].
  - destruct (count_leading ((t, READER) :: P)) as (A & B). lia.
  - cbn. lia.
Qed.
