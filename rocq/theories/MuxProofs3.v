From Coq Require Import ZArith List Bool Lia FinFun.
From Verif Require Import CInt CUtil MuxModel MuxSpec MuxProofs MuxProofs2.
Import ListNotations.
Local Open Scope Z_scope.

(** * Ranges *)

Lemma range_nil a b : b < a -> range a b = [].
Proof. intros H. unfold range. replace (Z.to_nat (b - a + 1)) with O by lia. reflexivity. Qed.
Lemma range_cons a b : a <= b -> range a b = a :: range (a + 1) b.
Proof.
  intros H. unfold range. replace (Z.to_nat (b - a + 1)) with (S (Z.to_nat (b - (a + 1) + 1))) by lia. cbn [seq map]. f_equal; [lia|]. rewrite <- seq_shift, map_map. apply map_ext. intros i. lia.
Qed.
Lemma range_app a b c : a <= b + 1 -> b <= c -> range a c = range a b ++ range (b + 1) c.
Proof.
  intros H1 H2. remember (Z.to_nat (b - a + 1)) as n eqn:N. revert a H1 N. induction n as [|n IH]; intros a H1 N.
  - rewrite (range_nil a b) by lia. replace (b + 1) with a by lia. reflexivity.
  - rewrite (range_cons a c), (range_cons a b) by lia. cbn [app]. f_equal. apply IH; lia.
Qed.
Lemma range_In a b x : In x (range a b) <-> a <= x <= b.
Proof.
  unfold range. rewrite in_map_iff. split; [intros (i & <- & I); apply in_seq in I; lia|]. intros H. exists (Z.to_nat (x - a)). split; [lia|]. apply in_seq. lia.
Qed.
Lemma range_NoDup a b : NoDup (range a b).
Proof. unfold range. apply Injective_map_NoDup; [intros i j; lia|apply seq_NoDup]. Qed.
Lemma range_length a b : length (range a b) = Z.to_nat (b - a + 1).
Proof. unfold range. rewrite map_length, seq_length. reflexivity. Qed.
Lemma range_snoc a b : a <= b -> range a b = range a (b - 1) ++ [b].
Proof. intros H. rewrite (range_app a (b - 1) b) by lia. replace (b - 1 + 1) with b by lia. rewrite (range_cons b b), (range_nil (b + 1) b) by lia. reflexivity. Qed.
Lemma filter_none {A} (f : A -> bool) l : (forall x, In x l -> f x = false) -> filter f l = [].
Proof. induction l as [|x l IH]; intros H; [reflexivity|]. cbn [filter]. rewrite (H x (or_introl eq_refl)). apply IH. intros y I. apply H. right. exact I. Qed.

Definition succ (lo hi x : Z) : Z := if x <? hi then x + 1 else lo.

Lemma cyclic_In lo hi p x : lo <= p <= hi + 1 -> In x (cyclic lo hi p) <-> lo <= x <= hi.
Proof. intros H. unfold cyclic. rewrite in_app_iff, !range_In. lia. Qed.
Lemma cyclic_NoDup lo hi p : NoDup (cyclic lo hi p).
Proof.
  unfold cyclic. pose proof (range_NoDup p hi) as N1. pose proof (range_NoDup lo (p - 1)) as N2.
  assert (D : forall x, In x (range p hi) -> ~ In x (range lo (p - 1))) by (intros x; rewrite !range_In; lia).
  induction N1 as [|x l NI N1 IH]; [exact N2|]. cbn [app]. constructor; [|apply IH; intros y I; apply D; right; exact I].
  rewrite in_app_iff. intros [H|H]; [contradiction|]. exact (D x (or_introl eq_refl) H).
Qed.
Lemma cyclic_length lo hi p : lo <= p <= hi -> length (cyclic lo hi p) = Z.to_nat (hi - lo + 1).
Proof. intros H. unfold cyclic. rewrite app_length, !range_length. lia. Qed.
Lemma cyclic_turn lo hi p : lo <= p <= hi -> exists t, cyclic lo hi p = p :: t /\ cyclic lo hi (succ lo hi p) = t ++ [p].
Proof.
  intros H. unfold succ, cyclic. rewrite (range_cons p hi) by lia. cbn [app]. eexists. split; [reflexivity|]. destruct (Z.ltb_spec p hi).
  - replace (p + 1 - 1) with p by lia. rewrite (range_snoc lo p) by lia. apply app_assoc.
  - replace p with hi by lia. rewrite (range_nil lo (lo - 1)), (range_nil (hi + 1) hi) by lia. rewrite app_nil_r. cbn [app]. apply range_snoc. lia.
Qed.
Lemma succ_in lo hi p : lo <= p <= hi -> lo <= succ lo hi p <= hi.
Proof. intros H. unfold succ. destruct (Z.ltb_spec p hi); lia. Qed.
Lemma cyclic_rotate lo hi : forall l1 p x l2, lo <= p <= hi -> cyclic lo hi p = l1 ++ x :: l2 -> lo <= x <= hi /\ cyclic lo hi (succ lo hi x) = l2 ++ l1 ++ [x].
Proof.
  assert (GEN : forall l1 p x l2 l3, lo <= p <= hi -> cyclic lo hi p = l1 ++ x :: l2 ++ l3 -> lo <= x <= hi /\ cyclic lo hi (succ lo hi x) = (l2 ++ l3) ++ l1 ++ [x]).
  { induction l1 as [|y l1 IH]; intros p x l2 l3 H E; destruct (cyclic_turn lo hi p H) as (t & E1 & E2); rewrite E in E1; cbn [app] in E1.
    - injection E1 as -> <-. split; [exact H|]. rewrite E2. reflexivity.
    - injection E1 as -> ET. subst t. rewrite <- app_assoc in E2. cbn [app] in E2. rewrite <- app_assoc in E2.
      destruct (IH (succ lo hi p) x l2 (l3 ++ [p]) (succ_in _ _ _ H) E2) as (R & E3). split; [exact R|]. rewrite E3. rewrite <- !app_assoc. reflexivity. }
  intros l1 p x l2 H E. specialize (GEN l1 p x l2 [] H). rewrite app_nil_r in GEN. apply GEN, E.
Qed.
(** Outside the bounds there is nothing to find. *)
Lemma cyclic_widen f lo hi p : 0 <= lo -> hi <= 1023 -> lo <= p <= hi + 1 -> (forall x, f x = true -> lo <= x <= hi) -> filter f (cyclic 0 1023 p) = filter f (cyclic lo hi p).
Proof.
  intros H1 H2 H3 F. unfold cyclic. rewrite (range_app p hi 1023), (range_app 0 (lo - 1) (p - 1)) by lia. replace (lo - 1 + 1) with lo by lia. rewrite !filter_app.
  rewrite (filter_none f (range (hi + 1) 1023)), (filter_none f (range 0 (lo - 1))); [rewrite app_nil_r; reflexivity| |]; intros x I; apply range_In in I; destruct (f x) eqn:E; [apply F in E; lia|reflexivity|apply F in E; lia|reflexivity].
Qed.
Lemma cyclic_succ f lo hi x : 0 <= lo -> hi <= 1023 -> lo <= x <= hi -> (forall x, f x = true -> lo <= x <= hi) -> filter f (cyclic 0 1023 (x + 1)) = filter f (cyclic lo hi (succ lo hi x)).
Proof.
  intros H1 H2 H3 F. rewrite (cyclic_widen f lo hi (x + 1)) by (lia || exact F). unfold succ. destruct (Z.ltb_spec x hi); [reflexivity|]. unfold cyclic. replace (x + 1 - 1) with hi by lia. rewrite (range_nil (x + 1) hi), (range_nil lo (lo - 1)), app_nil_r by lia. reflexivity.
Qed.

(** * The search visits the descriptors in cyclic order *)

Fixpoint path (lo hi x : Z) (l : list Z) (w : Z) : Prop :=
  match l with
  | [] => succ lo hi x = w
  | y :: l => succ lo hi x = y /\ y <> w /\ path lo hi y l w
  end.
Lemma path_low lo hi p : forall n x, n = Z.to_nat (p - 1 - x) -> lo <= x < p -> p <= hi -> path lo hi x (range (x + 1) (p - 1)) p.
Proof.
  induction n as [|n IH]; intros x N H1 H2.
  - rewrite range_nil by lia. cbn [path]. unfold succ. destruct (Z.ltb_spec x hi); lia.
  - rewrite range_cons by lia. cbn [path]. split; [unfold succ; destruct (Z.ltb_spec x hi); lia|]. split; [lia|]. apply IH; lia.
Qed.
Lemma path_cyclic lo hi p : forall n x, n = Z.to_nat (hi - x) -> lo <= p <= x -> x <= hi -> path lo hi x (range (x + 1) hi ++ range lo (p - 1)) p.
Proof.
  induction n as [|n IH]; intros x N H1 H2.
  - rewrite (range_nil (x + 1) hi) by lia. cbn [app]. assert (E : succ lo hi x = lo) by (unfold succ; destruct (Z.ltb_spec x hi); lia).
    destruct (Z.eq_dec lo p) as [EQ|NE]; [rewrite range_nil by lia; cbn [path]; lia|]. rewrite range_cons by lia. cbn [path]. split; [exact E|]. split; [exact NE|]. apply (path_low lo hi p (Z.to_nat (p - 1 - lo))); lia.
  - rewrite (range_cons (x + 1) hi) by lia. cbn [app path]. split; [unfold succ; destruct (Z.ltb_spec x hi); lia|]. split; [lia|]. apply IH; lia.
Qed.

Lemma loop_path : forall l fuel s w, 0 <= min s -> max s <= 1023 -> min s <= next s <= max s -> path (min s) (max s) (next s) l w -> (length l < fuel)%nat ->
  ready_loop fuel s w =
  match find (Z.testbit (ready s)) (next s :: l) with
  | Some fd => if Z.testbit (active s) fd then Some (MSet (active s) (Z.clearbit (ready s) fd) (min s) (max s) (succ (min s) (max s) fd), fd) else None
  | None => Some (MSet (active s) (ready s) (min s) (max s) w, -1)
  end.
Proof.
  induction l as [|y l IH]; intros fuel s w H1 H2 H3 P F; (destruct fuel as [|fuel]; [cbn in F; lia|]); cbn [ready_loop find]; unfold fd_isset; unfold in_set_size, FD_SETSIZE;
    (destruct (Z.leb_spec 0 (next s)); [|lia]); (destruct (Z.ltb_spec (next s) 1024); [|lia]); cbn [andb bind]; fold (succ (min s) (max s) (next s)); destruct (Z.testbit (ready s) (next s)) eqn:R.
  - destruct (Z.testbit (active s) (next s)); cbn [bind]; [|reflexivity]. unfold fd_clr, in_set_size, FD_SETSIZE. destruct (Z.leb_spec 0 (next s)); [|lia]. destruct (Z.ltb_spec (next s) 1024); [|lia]. cbn [andb bind]. destruct (Z.ltb_spec (next s) 0); [lia|]. reflexivity.
  - cbn [bind path] in *. rewrite P, Z.eqb_refl. reflexivity.
  - destruct (Z.testbit (active s) (next s)); cbn [bind]; [|reflexivity]. unfold fd_clr, in_set_size, FD_SETSIZE. destruct (Z.leb_spec 0 (next s)); [|lia]. destruct (Z.ltb_spec (next s) 1024); [|lia]. cbn [andb bind]. destruct (Z.ltb_spec (next s) 0); [lia|]. reflexivity.
  - cbn [bind path] in *. destruct P as (P1 & P2 & P3). rewrite P1. destruct (Z.eqb_spec y w); [contradiction|]. change ((-1 <? 0) && negb false) with true. cbv iota.
    rewrite (IH fuel (MSet (active s) (ready s) (min s) (max s) y) w); [reflexivity|exact H1|exact H2|cbn; rewrite <- P1; apply succ_in, H3|exact P3|cbn in F; lia].
Qed.
Lemma set_ready_is s : 0 <= min s -> max s <= 1023 -> min s <= next s <= max s ->
  set_ready s =
  match find (Z.testbit (ready s)) (cyclic (min s) (max s) (next s)) with
  | Some fd => if Z.testbit (active s) fd then Some (MSet (active s) (Z.clearbit (ready s) fd) (min s) (max s) (succ (min s) (max s) fd), fd) else None
  | None => Some (MSet (active s) (ready s) (min s) (max s) (-1), -1)
  end.
Proof.
  intros H1 H2 H3. unfold set_ready. rewrite Z.geb_leb. destruct (Z.leb_spec 0 (next s)); [|lia].
  rewrite (loop_path (range (next s + 1) (max s) ++ range (min s) (next s - 1)) _ s (next s) H1 H2 H3).
  - unfold cyclic. rewrite (range_cons (next s) (max s)) by lia. cbn [app]. destruct (find _ _) as [fd|] eqn:E; [|reflexivity]. destruct (Z.testbit (active s) fd); [|reflexivity]. cbn [bind].
    apply find_some in E as (E & _). assert (0 <= fd) by (destruct E as [E|E]; [lia|]; apply in_app_iff in E; rewrite !range_In in E; lia). destruct (Z.ltb_spec fd 0); [lia|reflexivity].
  - apply (path_cyclic _ _ _ (Z.to_nat (max s - next s))); lia.
  - rewrite app_length, !range_length. unfold FD_SETSIZE. lia.
Qed.

Lemma find_split {A} (f : A -> bool) l x : find f l = Some x -> exists l1 l2, l = l1 ++ x :: l2 /\ f x = true /\ forall y, In y l1 -> f y = false.
Proof.
  induction l as [|y l IH]; intros E; [discriminate|]. cbn [find] in E. destruct (f y) eqn:F.
  - injection E as <-. exists [], l. cbn [app In]. tauto.
  - destruct (IH E) as (l1 & l2 & -> & F2 & N). exists (y :: l1), l2. split; [reflexivity|]. split; [exact F2|]. intros z [<-|I]; auto.
Qed.
Lemma filter_find {A} (f : A -> bool) l : match find f l with None => filter f l = [] | Some x => exists t, filter f l = x :: t end.
Proof. induction l as [|x l IH]; [reflexivity|]. cbn [find filter]. destruct (f x); [eauto|exact IH]. Qed.

(** One call of a round. *)
Lemma take_one s : 0 <= min s -> max s <= 1023 -> min s <= next s <= max s -> (forall x, min s <= x <= max s -> Z.testbit (ready s) x = true -> Z.testbit (active s) x = true) ->
  match filter (Z.testbit (ready s)) (cyclic (min s) (max s) (next s)) with
  | [] => set_ready s = Some (MSet (active s) (ready s) (min s) (max s) (-1), -1)
  | fd :: t => min s <= fd <= max s /\ exists s', set_ready s = Some (s', fd) /\ s' = MSet (active s) (Z.clearbit (ready s) fd) (min s) (max s) (succ (min s) (max s) fd) /\ min s <= next s' <= max s /\
      filter (Z.testbit (ready s')) (cyclic (min s') (max s') (next s')) = t
  end.
Proof.
  intros H1 H2 H3 A. rewrite (set_ready_is s H1 H2 H3). pose proof (filter_find (Z.testbit (ready s)) (cyclic (min s) (max s) (next s))) as FF.
  destruct (find _ _) as [fd|] eqn:E; [|rewrite FF; reflexivity]. destruct FF as (t & FF). rewrite FF. apply find_split in E as (l1 & l2 & E & B & N).
  destruct (cyclic_rotate _ _ _ _ _ _ H3 E) as (R & RO). rewrite (A fd R B). split; [exact R|]. eexists. split; [reflexivity|]. split; [reflexivity|]. cbn. split; [apply succ_in, R|].
  rewrite RO. pose proof (cyclic_NoDup (min s) (max s) (next s)) as ND. rewrite E in ND. pose proof (NoDup_remove_2 _ _ _ ND) as NI.
  rewrite E, filter_app in FF. cbn [filter] in FF. rewrite B, (filter_none _ l1 N) in FF. cbn [app] in FF. injection FF as <-. rewrite !filter_app. cbn [filter]. rewrite Z.clearbit_eq.
  assert (SAME : forall l, ~ In fd l -> filter (Z.testbit (Z.clearbit (ready s) fd)) l = filter (Z.testbit (ready s)) l).
  { intros l NIN. apply filter_ext_in. intros y I. destruct (Z.eq_dec y fd) as [->|NE]; [contradiction|]. apply Z.clearbit_neq; auto. }
  rewrite !SAME by (intros I; apply NI, in_app_iff; auto). rewrite (filter_none _ l1 N). apply app_nil_r.
Qed.
