(** Properties C14, C15 and C49. *)

From Coq Require Import ZArith List Bool Arith Lia Permutation.
From Verif Require Import CUtil ListModel ListSpec ListProofs ListProofs2 ListProofs3 ListProofs4 ListProofs5 ListProofs6.
Import ListNotations.
Local Open Scope nat_scope.

(** Whatever operations are done in whatever order on distinct initialised nodes: no
    operation runs forever, next and previous links stay mutually inverse, all nodes of a
    list name the same root, and the root is met by following next. The data of the nodes,
    and other memory, are not touched. *)
Theorem C14_integrity : forall fuel h nodes ops, NoDup nodes -> length nodes <= fuel ->
  Forall (fun o => Forall (fun x => In x nodes) (operands o)) ops ->
  exists h' results, run fuel (init_all h nodes) ops = Some (h', results) /\ integral h' nodes /\
    (forall y, data (h' y) = data (init_all h nodes y)) /\
    (forall y, ~ In y nodes -> next (h' y) = next (h y) /\ prev (h' y) = prev (h y) /\ root (h' y) = root (h y)).
Proof.
  intros fuel h nodes ops N L F. pose proof (init_all_ok h nodes N) as R. pose proof (concat_single nodes) as E.
  destruct (run_ok fuel ops (init_all h nodes) _ R) as (h' & E1 & R1 & P1 & K1 & K2); [rewrite E; exact F|rewrite E; exact L|].
  rewrite E in *. exists h', (snd (s_run (map (fun x => [x]) nodes) ops)). split; [exact E1|]. split.
  - pose proof (represents_integral h' _ R1) as G. intros x Hx. apply (Permutation_in _ P1) in Hx. destruct (G x Hx) as (A1 & A2 & A3 & A4).
    assert (Q : forall y, In y (concat (fst (s_run (map (fun x => [x]) nodes) ops))) -> In y nodes) by (intros y; apply Permutation_in, Permutation_sym, P1).
    split; [apply Q, A1|]. split; [apply Q, A2|]. split; [apply Q, A3|exact A4].
  - split; [exact K1|]. intros y Hy. destruct (K2 y Hy) as (B1 & B2 & B3). destruct (init_all_fields nodes h y) as (_ & I2). destruct (I2 Hy) as (J1 & J2 & J3).
    rewrite B1, B2, B3. auto.
Qed.
Print Assumptions C14_integrity.

(** Every node is on exactly one list: the lists of the heap share no node, and together
    hold exactly the nodes; and each list is as the operations on sequences say. *)
Theorem C14_partition : forall fuel h rs ops, represents h rs -> length (concat rs) <= fuel ->
  Forall (fun o => Forall (fun x => In x (concat rs)) (operands o)) ops ->
  exists h' results rs', run fuel h ops = Some (h', results) /\ (rs', results) = s_run rs ops /\
    represents h' rs' /\ Permutation (concat rs) (concat rs').
Proof.
  intros fuel h rs ops R L F. destruct (run_ok fuel ops h rs R F L) as (h' & E & R' & P & _).
  exists h', (snd (s_run rs ops)), (fst (s_run rs ops)). split; [exact E|]. split; [destruct (s_run rs ops); reflexivity|]. auto.
Qed.
Print Assumptions C14_partition.

Example C14_example : let h := fun _ => Node 0 0 0 0 in
  exists h', run 4 (init_all h [1; 2; 3; 4]) [Push 1 2; Enqueue 2 3; Insert 1 4; Cut 2 3; Splice 1 3; Remove 1; Pop 4] = Some (h', [2; 3; 4; 2; 3; 1; 2]) /\
    ring h' [3; 4] /\ ring h' [2] /\ ring h' [1].
Proof.
  cbv zeta. destruct (run 4 _ _) as [(h', r)|] eqn:E; [|vm_compute in E; discriminate].
  exists h'. assert (Er : r = [2; 3; 4; 2; 3; 1; 2]) by (vm_compute in E; congruence). subst r. split; [reflexivity|].
  vm_compute in E. injection E as <-. unfold ring, chain, adjacent. cbn.
  split; [|split]; (split; [discriminate|]); (split; [repeat split|]); (split; [repeat split|]); repeat constructor.
Qed.

(** A list as its root sees it: push puts a node in front, *)
Theorem C15_push : forall fuel h rt l rs s x, represents h ((rt :: l) :: rs) -> In s (rt :: l) -> In x (concat rs) ->
  length (concat ((rt :: l) :: rs)) <= fuel ->
  exists h', push fuel h s x = Some h' /\ represents h' ((rt :: x :: l) :: detach x rs).
Proof.
  intros fuel h rt l rs s x R Is Ix L. destruct (push_step fuel h rt l rs s x R Is Ix L) as (h' & E & R'). exists h'. split; [|exact R'].
  cbn [step] in E. destruct (push fuel h s x); cbn in E; congruence.
Qed.
Print Assumptions C15_push.

(** enqueue puts it at the back, *)
Theorem C15_enqueue : forall fuel h rt l rs s x, represents h ((rt :: l) :: rs) -> In s (rt :: l) -> In x (concat rs) ->
  length (concat ((rt :: l) :: rs)) <= fuel ->
  exists h', enqueue fuel h s x = Some h' /\ represents h' ((rt :: l ++ [x]) :: detach x rs).
Proof.
  intros fuel h rt l rs s x R Is Ix L. destruct (enqueue_step fuel h rt l rs s x R Is Ix L) as (h' & E & R'). exists h'. split; [|exact R'].
  cbn [step] in E. destruct (enqueue fuel h s x); cbn in E; congruence.
Qed.
Print Assumptions C15_enqueue.

(** pop and dequeue take the node in front, *)
Theorem C15_pop : forall fuel h rt x l rs s, represents h ((rt :: x :: l) :: rs) -> In s (rt :: x :: l) ->
  length (concat ((rt :: x :: l) :: rs)) <= fuel ->
  exists h', pop fuel h s = Some (h', x) /\ dequeue fuel h s = Some (h', x) /\ represents h' ([x] :: (rt :: l) :: rs).
Proof.
  intros fuel h rt x l rs s R Is L. destruct (pop_step fuel h rt x l rs s R Is L) as (h' & E & R'). exists h'. auto.
Qed.
Print Assumptions C15_pop.

(** or nothing if there is none; *)
Theorem C15_empty : forall fuel h rt rs, represents h ([rt] :: rs) ->
  pop fuel h rt = Some (h, NULL) /\ dequeue fuel h rt = Some (h, NULL) /\ head h rt = NULL /\ tail h rt = NULL.
Proof.
  intros fuel h rt rs R. pose proof (pop_empty fuel h rt rs R) as P. split; [exact P|]. split; [exact P|].
  destruct (single_next h rt rs R) as (A1 & _ & A3). unfold head, tail, isempty. rewrite A3, A1, Nat.eqb_refl. auto.
Qed.
Print Assumptions C15_empty.

(** head and tail are the first and the last; *)
Theorem C15_head_tail : forall h rt l rs s, represents h ((rt :: l) :: rs) -> In s (rt :: l) -> l <> [] ->
  head h s = hd 0 l /\ tail h s = last l 0.
Proof.
  intros h rt l rs s R Is NE. unfold head, tail, isempty.
  assert (Rs : root (h s) = rt) by (rewrite (root_list h s _ R (in_first _ _ _ Is)), (list_of_head h s _ rs R Is); reflexivity).
  pose proof (Forall_inv (proj2 R)) as Q. apply ring_cyc in Q as (_ & C & _). destruct (cyc_next _ _ _ C) as (A1 & _). destruct (cyc_prev _ _ _ C) as (A3 & _).
  rewrite Rs, A1, A3. destruct l as [|x l]; [congruence|]. cbn [hd].
  destruct (Nat.eqb_spec rt x) as [->|_]; [exfalso; destruct R as (N & _); cbn in N; inversion N as [|? ? X _]; subst; apply X; left; reflexivity|].
  split; reflexivity.
Qed.
Print Assumptions C15_head_tail.

(** What the questions answer, of any nodes of any lists: a node is a root iff it is the
    first of its list, it is a member of the list of a root iff it is on it, two nodes are
    siblings iff they are on the same list, a list is empty iff its root is alone, and a
    node that is on a list is initialised and is left as it is; *)
Theorem C15_asks : forall h rs x y, represents h rs -> In x (concat rs) -> In y (concat rs) -> ~ In NULL (concat rs) ->
  (isroot h x = true <-> exists l, In (x :: l) rs) /\
  (ismember h x y = true <-> exists l, In (x :: l) rs /\ In y (x :: l)) /\
  (aresiblings h x y = true <-> exists l, In l rs /\ In x l /\ In y l) /\
  (isempty h x = true <-> In [x] rs) /\
  isuninitialized h x = false /\ initif h x = h.
Proof.
  intros h rs x y R Hx Hy HN. destruct (list_of_spec h x rs R Hx) as (X1 & X2). destruct (list_of_spec h y rs R Hy) as (Y1 & Y2).
  pose proof (root_list h x rs R Hx) as Rx. pose proof (root_list h y rs R Hy) as Ry.
  assert (U : isuninitialized h x = false).
  { unfold isuninitialized. apply Nat.eqb_neq. intros Q. apply HN. rewrite Q, Rx. apply in_concat. exists (list_of x rs). split; [exact X1|].
    apply hd_In, (list_ne h x rs R Hx). }
  split; [|split; [|split; [|split; [|split]]]].
  - unfold isroot. rewrite Nat.eqb_eq, Rx. split.
    + intros E. destruct (list_of x rs) as [|z l]; [destruct X2|]. cbn in E. subst z. exists l. exact X1.
    + intros (l & Hl). rewrite (list_of_unique h x rs (x :: l) R Hl (or_introl eq_refl)). reflexivity.
  - unfold ismember. rewrite Nat.eqb_eq, Ry. split.
    + intros E. destruct (list_of y rs) as [|z l]; [destruct Y2|]. cbn in E. subst z. exists l. split; [exact Y1|exact Y2].
    + intros (l & Hl & Hm). rewrite (list_of_unique h y rs (x :: l) R Hl Hm). reflexivity.
  - unfold aresiblings. rewrite (root_eq h x y rs R Hx Hy), mem_In. split.
    + intros M. exists (list_of x rs). auto.
    + intros (l & Hl & M1 & M2). rewrite (list_of_unique h x rs l R Hl M1). exact M2.
  - unfold isempty. rewrite Nat.eqb_eq. split.
    + intros E. destruct (in_split _ _ X2) as (l1 & l2 & El). rewrite El in X1.
      assert (Rg : ring h (l1 ++ x :: l2)) by (destruct R as (_ & F); rewrite Forall_forall in F; exact (F _ X1)).
      apply ring_cyc in Rg. destruct Rg as (_ & C & _). apply cyc_rot in C. cbn [app] in C. destruct (cyc_next h x (l2 ++ l1) C) as (N & _).
      assert (Nd : NoDup (l1 ++ x :: l2)).
      { destruct R as (D & _). destruct (in_split _ _ X1) as (A & B & EA). rewrite EA in D. exact (nodup_part A _ B D). }
      destruct (nodup_mid_l x l1 l2 Nd) as (D1 & D2). rewrite N in E.
      destruct l2 as [|z l2]; [destruct l1 as [|z l1]; [exact X1|]|]; cbn in E; subst z; [destruct D1|destruct D2]; left; reflexivity.
    + intros H1. destruct (in_split _ _ H1) as (A & B & ->). apply represents_mid in R. destruct (single_next h x _ R) as (N & _). symmetry. exact N.
  - exact U.
  - unfold initif. rewrite U. reflexivity.
Qed.
Print Assumptions C15_asks.

Example C15_asks_example : let h := fun p => match p with 1 => Node 2 2 1 0 | 2 => Node 1 1 1 0 | 3 => Node 3 3 3 0 | _ => Node 0 0 0 0 end in
  represents h [[1; 2]; [3]] /\ ~ In NULL (concat [[1; 2]; [3]]) /\ isroot h 1 = true /\ isroot h 2 = false /\ ismember h 1 2 = true /\ ismember h 2 1 = false /\
  aresiblings h 2 1 = true /\ aresiblings h 2 3 = false /\ isempty h 3 = true.
Proof.
  cbv zeta. split; [|split; [intros [E|[E|[E|[]]]]; discriminate|repeat split]].
  split; [repeat constructor; cbn; intuition lia|].
  repeat constructor; try discriminate.
Qed.

(** insert puts a node right after the given one, *)
Theorem C15_insert : forall fuel h l1 p l2 rs x, represents h ((l1 ++ p :: l2) :: rs) -> In x (concat rs) ->
  length (concat ((l1 ++ p :: l2) :: rs)) <= fuel ->
  exists h', insert fuel h p x = Some h' /\ represents h' ((l1 ++ p :: x :: l2) :: detach x rs).
Proof.
  intros fuel h l1 p l2 rs x R Ix L. destruct (insert_ok fuel h p x _ R) as (h' & E & R' & _); [apply in_first, in_or_app; right; left; reflexivity|apply in_rest, Ix|exact L|].
  exists h'. split; [exact E|]. rewrite (place_rest h) in R' by assumption. exact R'.
Qed.
Print Assumptions C15_insert.

(** remove takes it out, and leaves it a list of its own; *)
Theorem C15_remove : forall fuel h l1 x l2 rs, represents h ((l1 ++ x :: l2) :: rs) -> l1 ++ l2 <> [] ->
  length (concat ((l1 ++ x :: l2) :: rs)) <= fuel ->
  exists h', remove fuel h x = Some h' /\ represents h' ([x] :: (l1 ++ l2) :: rs).
Proof.
  intros fuel h l1 x l2 rs R NE L. destruct (remove_ok fuel h x _ R) as (h' & E & R' & _); [apply in_first, in_or_app; right; left; reflexivity|exact L|].
  exists h'. split; [exact E|]. unfold s_remove in R'. rewrite (detach_first h) in R' by exact R. destruct (l1 ++ l2); [congruence|exact R'].
Qed.
Print Assumptions C15_remove.

(** a node that is already on the list, and not the last, is moved to the back by
    enqueue; and push moves to the front; *)
Theorem C15_move : forall fuel h rt l1 x l2 rs, represents h ((rt :: l1 ++ x :: l2) :: rs) ->
  length (concat ((rt :: l1 ++ x :: l2) :: rs)) <= fuel ->
  (l2 <> [] -> exists h', enqueue fuel h rt x = Some h' /\ represents h' ((rt :: l1 ++ l2 ++ [x]) :: rs)) /\
  (exists h', push fuel h rt x = Some h' /\ represents h' ((rt :: x :: l1 ++ l2) :: rs)).
Proof.
  intros fuel h rt l1 x l2 rs R L.
  assert (Irt : In rt (concat ((rt :: l1 ++ x :: l2) :: rs))) by (apply in_first; left; reflexivity).
  assert (Ix : In x (concat ((rt :: l1 ++ x :: l2) :: rs))) by (apply in_first; right; apply in_or_app; right; left; reflexivity).
  assert (N : NoDup (rt :: l1 ++ x :: l2)) by (destruct R as (N & _); cbn in N; change (NoDup ((rt :: l1 ++ x :: l2) ++ concat rs)) in N; exact (nodup_l _ _ N)).
  assert (Rx : root (h rt) = rt) by (rewrite (root_list h rt _ R Irt), (list_of_head h rt _ rs R (or_introl eq_refl)); reflexivity).
  assert (Nx : rt <> x) by (intros ->; inversion N as [|? ? X _]; subst; apply X, in_or_app; right; left; reflexivity).
  pose proof (detach_first h x (rt :: l1) l2 rs R) as D. cbn [app ne] in D.
  assert (PL : forall p, In p (rt :: l1 ++ l2) -> map (place p [x]) rs = rs).
  { intros p Hp. rewrite (map_ext_in _ (fun r => r)); [apply map_id|]. intros r Hr. apply place_id. intros Hp'.
    apply (disj_first h _ _ p R); [apply in_concat; exists r; auto|]. destruct Hp as [Hp|Hp]; [left; exact Hp|right]. rewrite in_app_iff in *. cbn [In]. tauto. }
  assert (N' : NoDup (rt :: l1 ++ l2)) by (change (rt :: l1 ++ x :: l2) with ((rt :: l1) ++ x :: l2) in N; apply NoDup_remove_1 in N; exact N).
  split.
  - intros NE. unfold enqueue. rewrite Rx. pose proof (Forall_inv (proj2 R)) as Q. destruct Q as (_ & _ & (_ & A2) & _). cbn [hd] in A2. rewrite A2.
    assert (El : last (rt :: l1 ++ x :: l2) 0 = last l2 0).
    { change (rt :: l1 ++ x :: l2) with ((rt :: l1) ++ x :: l2). rewrite last_app by discriminate. apply last_cons, NE. }
    replace (last (rt :: l1 ++ x :: l2) 0) with (last l2 0) by (symmetry; exact El).
    destruct (insert_ok fuel h (last l2 0) x _ R) as (h' & E & R' & _); [|exact Ix|exact L|].
    { apply in_first. right. apply in_or_app. right. right. apply last_In, NE. }
    exists h'. split; [exact E|]. destruct (exists_last NE) as (l3 & b & ->). rewrite last_last in R'. unfold s_insert in R'.
    assert (Nb : b <> x).
    { intros ->. change (rt :: l1 ++ x :: l3 ++ [x]) with ((rt :: l1) ++ x :: l3 ++ [x]) in N. apply NoDup_remove_2 in N. apply N. apply in_or_app. right. apply in_or_app. right. left. reflexivity. }
    destruct (Nat.eqb_spec b x); [contradiction|]. rewrite D in R'. cbn [map app] in R'.
    rewrite PL in R' by (right; rewrite !in_app_iff; right; right; left; reflexivity).
    change (rt :: l1 ++ l3 ++ [b]) with ((rt :: l1) ++ l3 ++ [b]) in R', N'. rewrite app_assoc in R', N'. rewrite (place_mid b [x] ((rt :: l1) ++ l3) [] N') in R'.
    cbn [app] in R'. rewrite <- !app_assoc in R'. rewrite <- !app_assoc. exact R'.
  - unfold push. rewrite Rx. destruct (insert_ok fuel h rt x _ R Irt Ix L) as (h' & E & R' & _). exists h'. split; [exact E|].
    unfold s_insert in R'. destruct (Nat.eqb_spec rt x); [contradiction|]. rewrite D in R'. cbn [map app] in R'.
    rewrite PL in R' by (left; reflexivity). pose proof (place_mid rt [x] [] (l1 ++ l2) N') as PM. cbn [app] in PM. rewrite PM in R'. exact R'.
Qed.
Print Assumptions C15_move.

(** replace puts the new node where the old one was. *)
Theorem C15_replace : forall fuel h l1 o l2 rs n, represents h ((l1 ++ o :: l2) :: rs) -> In n (concat rs) ->
  length (concat ((l1 ++ o :: l2) :: rs)) <= fuel ->
  exists h', replace fuel h o n = Some h' /\ represents h' ([o] :: (l1 ++ n :: l2) :: detach n rs).
Proof.
  intros fuel h l1 o l2 rs n R I L. destruct (replace_ok fuel h o n _ R) as (h' & E & R' & _); [apply in_first, in_or_app; right; left; reflexivity|apply in_rest, I|exact L|].
  exists h'. split; [exact E|]. unfold s_replace in R'. rewrite (place_rest h) in R' by assumption.
  destruct (C15_insert fuel h l1 o l2 rs n R I L) as (h1 & _ & R1).
  unfold s_remove in R'. rewrite (detach_first h1 o l1 (n :: l2) _ R1) in R'. destruct l1; exact R'.
Qed.
Print Assumptions C15_replace.

(** Splicing puts a list after a node of another, in its order from the given node on. *)
Theorem C15_splice : forall fuel h l1 t l2 m1 f m2 rs, represents h ((l1 ++ t :: l2) :: (m1 ++ f :: m2) :: rs) ->
  length (concat ((l1 ++ t :: l2) :: (m1 ++ f :: m2) :: rs)) <= fuel ->
  exists h', splice fuel h t f = Some h' /\ represents h' ((l1 ++ t :: (f :: m2 ++ m1) ++ l2) :: rs).
Proof.
  intros fuel h l1 t l2 m1 f m2 rs R L.
  assert (It : In t (concat ((l1 ++ t :: l2) :: (m1 ++ f :: m2) :: rs))) by (apply in_first, in_or_app; right; left; reflexivity).
  assert (If : In f (concat ((l1 ++ t :: l2) :: (m1 ++ f :: m2) :: rs))) by (apply in_rest, in_first, in_or_app; right; left; reflexivity).
  destruct (splice_ok fuel h t f _ R It If L) as (h' & E & R' & _). exists h'. split; [exact E|].
  pose proof (proj1 R) as N. unfold s_splice in R'. pose proof (list_of_mid f [l1 ++ t :: l2] m1 m2 rs N) as PM1. pose proof (others_mid f [l1 ++ t :: l2] m1 m2 rs N) as PM2. cbn [app] in PM1, PM2. rewrite PM1, PM2 in R'.
  assert (Nf : NoDup (m1 ++ f :: m2)) by exact (nodup_part [l1 ++ t :: l2] _ rs N).
  assert (T : mem t (m1 ++ f :: m2) = false).
  { apply mem_not. intros Z. apply (nodup_disj _ _ t N); [apply in_or_app; right; left; reflexivity|apply in_first, Z]. }
  rewrite T in R'. rewrite turn_mid in R' by exact (proj1 (nodup_mid_l _ _ _ Nf)). cbn [app map] in R'.
  rewrite (place_mid t _ l1 l2) in R' by (cbn in N; exact (nodup_l _ _ N)).
  rewrite (map_ext_in _ (fun r => r)) in R'; [rewrite map_id in R'; exact R'|].
  intros r Hr. apply place_id. intros Z. apply (nodup_disj _ _ t N); [apply in_or_app; right; left; reflexivity|]. apply in_rest, in_concat. exists r. auto.
Qed.
Print Assumptions C15_splice.

(** Cutting a segment that does not hold the root leaves the rest in its order, and makes
    the segment a list rooted in its first node. *)
Theorem C15_cut : forall fuel h rt l1 a s b l2 rs, represents h ((rt :: l1 ++ (a :: s ++ [b]) ++ l2) :: rs) ->
  length (concat ((rt :: l1 ++ (a :: s ++ [b]) ++ l2) :: rs)) <= fuel ->
  exists h', cut fuel h a b = Some h' /\ represents h' ((a :: s ++ [b]) :: (rt :: l1 ++ l2) :: rs).
Proof.
  intros fuel h rt l1 a s b l2 rs R L.
  replace (rt :: l1 ++ (a :: s ++ [b]) ++ l2) with ((rt :: l1) ++ a :: s ++ b :: l2) in * by (cbn; rewrite <- app_assoc; reflexivity).
  assert (Ia : In a (concat (((rt :: l1) ++ a :: s ++ b :: l2) :: rs))) by (apply in_first, in_or_app; right; left; reflexivity).
  assert (Ib : In b ((rt :: l1) ++ a :: s ++ b :: l2)) by (apply in_or_app; right; right; apply in_or_app; right; left; reflexivity).
  destruct (cut_ok fuel h a b _ R Ia (in_first _ _ _ Ib) L) as (h' & E & R' & _). exists h'. split; [exact E|].
  pose proof (proj1 R) as N. unfold s_cut in R'. rewrite (list_of_first h a (rt :: l1) (s ++ b :: l2) rs R) in R'.
  pose proof (others_mid a [] (rt :: l1) (s ++ b :: l2) rs N) as PM. cbn [app] in PM. cbn [app] in R'. rewrite PM in R'. change (rt :: l1 ++ a :: s ++ b :: l2) with ((rt :: l1) ++ a :: s ++ b :: l2) in R'. apply mem_In in Ib. rewrite Ib in R'. cbn [negb] in R'.
  assert (Na : NoDup ((rt :: l1) ++ a :: s ++ b :: l2)) by exact (nodup_part [] _ rs N).
  assert (NT : NoDup ((a :: s) ++ b :: l2 ++ rt :: l1)).
  { apply (Permutation_NoDup (turn_perm a (rt :: l1) (s ++ b :: l2))) in Na. cbn in Na |- *. rewrite <- app_assoc in Na. exact Na. }
  rewrite turn_mid in R' by exact (proj1 (nodup_mid_l _ _ _ Na)).
  replace (a :: (s ++ b :: l2) ++ rt :: l1) with ((a :: s) ++ b :: l2 ++ rt :: l1) in R' by (cbn; rewrite <- app_assoc; reflexivity).
  destruct (nodup_mid_l _ _ _ NT) as (B1 & B2). rewrite upto_mid, from_mid in R' by exact B1. cbn [tl] in R'.
  destruct (l2 ++ rt :: l1) as [|z l] eqn:El; [destruct l2; discriminate|]. rewrite <- El in *. cbn [hd app] in R'.
  assert (X : mem rt (a :: s ++ [b]) = false).
  { apply mem_not. intros Z. cbn in Na. inversion Na as [|? ? W _]; subst. apply W. apply in_or_app. right. destruct Z as [Z|Z]; [left; exact Z|right].
    rewrite in_app_iff in *. cbn [In] in *. tauto. }
  rewrite X in R'. assert (Nr : ~ In rt l2).
  { intros Z. cbn in Na. inversion Na as [|? ? W _]; subst. apply W. apply in_or_app. right. right. apply in_or_app. right. right. exact Z. }
  rewrite turn_mid in R' by exact Nr. exact R'.
Qed.
Print Assumptions C15_cut.

(** So a list is a queue, and a stack. *)
Theorem C15_queue : forall fuel h q xs, NoDup (q :: xs) -> S (length xs) <= fuel ->
  exists h', run fuel (init_all h (q :: xs)) (map (Enqueue q) xs ++ repeat (Dequeue q) (length xs)) = Some (h', xs ++ xs).
Proof.
  intros fuel h q xs N L. pose proof (init_all_ok h (q :: xs) N) as R. cbn [map] in R. change (map (fun x => [x]) xs) with (sing xs) in R. rewrite <- (app_nil_r (sing xs)) in R.
  assert (Len : length (concat ([q] :: sing xs ++ [])) <= fuel) by (rewrite app_nil_r; cbn; unfold sing; rewrite concat_single; exact L).
  destruct (enqueue_all fuel q [] xs [] _ R Len) as (h1 & E1 & R1).
  destruct (pop_all fuel q (Dequeue q) (or_intror eq_refl) xs [] h1 R1) as (h2 & E2 & _); [cbn; rewrite app_nil_r; exact L|].
  exists h2. apply (run_app fuel _ _ _ h1); assumption.
Qed.
Print Assumptions C15_queue.
Theorem C15_stack : forall fuel h q xs, NoDup (q :: xs) -> S (length xs) <= fuel ->
  exists h', run fuel (init_all h (q :: xs)) (map (Push q) xs ++ repeat (Pop q) (length xs)) = Some (h', xs ++ rev xs).
Proof.
  intros fuel h q xs N L. pose proof (init_all_ok h (q :: xs) N) as R. cbn [map] in R. change (map (fun x => [x]) xs) with (sing xs) in R. rewrite <- (app_nil_r (sing xs)) in R.
  assert (Len : length (concat ([q] :: sing xs ++ [])) <= fuel) by (rewrite app_nil_r; cbn; unfold sing; rewrite concat_single; exact L).
  destruct (push_all fuel q [] xs [] _ R Len) as (h1 & E1 & R1). rewrite app_nil_r in R1.
  destruct (pop_all fuel q (Pop q) (or_introl eq_refl) (rev xs) [] h1 R1) as (h2 & E2 & _); [cbn; rewrite app_nil_r, rev_length; exact L|].
  rewrite rev_length in E2. exists h2. apply (run_app fuel _ _ _ h1); assumption.
Qed.
Print Assumptions C15_stack.

Example C15_example : let h := init_all (fun _ => Node 0 0 0 0) [1; 2; 3; 4] in represents h [[1]; [2]; [3]; [4]] /\
  exists h', run 4 h [Enqueue 1 2; Enqueue 1 3; Push 1 4; Enqueue 1 4; Dequeue 1; Pop 1; Dequeue 1; Dequeue 1] = Some (h', [2; 3; 4; 4; 2; 3; 4; NULL]).
Proof.
  cbv zeta. split; [apply (init_all_ok _ [1; 2; 3; 4]); repeat constructor; cbn; intuition congruence|].
  destruct (run 4 _ _) as [(h', r)|] eqn:E; [|vm_compute in E; discriminate]. exists h'. change NULL with 0. f_equal. f_equal. vm_compute in E. congruence.
Qed.

(** Enqueuing a node that is already at the back does not put it there: it takes it off
    the list. So does pushing the root onto its own list. *)
Theorem C15_enqueue_tail_refuted : forall fuel h rt l x rs, represents h ((rt :: l ++ [x]) :: rs) ->
  length (concat ((rt :: l ++ [x]) :: rs)) <= fuel ->
  exists h', enqueue fuel h rt x = Some h' /\ represents h' ([x] :: (rt :: l) :: rs).
Proof.
  intros fuel h rt l x rs R L.
  assert (Irt : In rt (concat ((rt :: l ++ [x]) :: rs))) by (apply in_first; left; reflexivity).
  assert (Ix : In x (concat ((rt :: l ++ [x]) :: rs))) by (apply in_first; right; apply in_or_app; right; left; reflexivity).
  assert (Rx : root (h rt) = rt) by (rewrite (root_list h rt _ R Irt), (list_of_head h rt _ rs R (or_introl eq_refl)); reflexivity).
  unfold enqueue. rewrite Rx. pose proof (Forall_inv (proj2 R)) as Q. destruct Q as (_ & _ & (_ & A2) & _). cbn [hd] in A2. rewrite A2.
  change (rt :: l ++ [x]) with ((rt :: l) ++ [x]) in *. rewrite last_last.
  destruct (insert_ok fuel h x x _ R Ix Ix L) as (h' & E & R' & _). exists h'. split; [exact E|]. unfold s_insert in R'. rewrite Nat.eqb_refl in R'.
  unfold s_remove in R'. rewrite (detach_first h x (rt :: l) [] rs R) in R'. rewrite app_nil_r in R'. exact R'.
Qed.
Print Assumptions C15_enqueue_tail_refuted.
Theorem C15_push_root_refuted : forall fuel h rt y l rs, represents h ((rt :: y :: l) :: rs) ->
  length (concat ((rt :: y :: l) :: rs)) <= fuel ->
  exists h', push fuel h rt rt = Some h' /\ represents h' ([rt] :: (y :: l) :: rs).
Proof.
  intros fuel h rt y l rs R L.
  assert (Irt : In rt (concat ((rt :: y :: l) :: rs))) by (apply in_first; left; reflexivity).
  assert (Rx : root (h rt) = rt) by (rewrite (root_list h rt _ R Irt), (list_of_head h rt _ rs R (or_introl eq_refl)); reflexivity).
  unfold push. rewrite Rx. destruct (insert_ok fuel h rt rt _ R Irt Irt L) as (h' & E & R' & _). exists h'. split; [exact E|].
  unfold s_insert in R'. rewrite Nat.eqb_refl in R'. unfold s_remove in R'. pose proof (detach_first h rt [] (y :: l) rs R) as PM. cbn [app] in PM. rewrite PM in R'. exact R'.
Qed.
Print Assumptions C15_push_root_refuted.

(** The audit is silent about a sound list, *)
Theorem C49_no_false_alarm : forall h rs x limit, represents h rs -> In x (concat rs) -> length (list_of x rs) < limit -> audit limit h x = NULL.
Proof. exact audit_null. Qed.
Print Assumptions C49_no_false_alarm.

(** and if it is silent the node is on a circle of which all links are mutually inverse
    and all nodes, but possibly the one the two directions meet at, name the same root. *)
Theorem C49_silence : forall limit h x, root (h x) <> NULL -> (forall k, follow h k x <> NULL /\ back h k x <> NULL) -> audit limit h x = NULL ->
  exists k, 0 < k /\ let m := follow h k x in let nodes := m :: visited h k x in
    In x nodes /\
    (forall y, In y nodes -> In (next (h y)) nodes /\ In (prev (h y)) nodes /\ prev (h (next (h y))) = y /\ next (h (prev (h y))) = y) /\
    (forall y, In y (visited h k x) -> root (h y) = root (h x)).
Proof. exact audit_sound. Qed.
Print Assumptions C49_silence.

Example C49_example : let h := fun p => match p with 1 => Node 2 3 1 0 | 2 => Node 3 1 1 0 | 3 => Node 1 2 1 0 | _ => Node 0 0 0 0 end in
  audit 9 h 2 = NULL /\ audit 3 h 2 = 1 /\ audit 9 (set_root h 3 2) 2 = 3 /\ audit 9 (set_next h 3 2) 2 = 3.
Proof. split; [vm_compute; reflexivity|]. split; [vm_compute; reflexivity|]. split; vm_compute; reflexivity. Qed.

(** That exception is real: on a list of two nodes the audit, from either of them, does not
    notice that one of them names a root that is not on the list. *)
Theorem C49_all_roots_refuted : exists h, (forall limit, 2 <= limit -> audit limit h 1 = NULL /\ audit limit h 2 = NULL) /\
  adjacent h 1 2 /\ adjacent h 2 1 /\ root (h 1) = 1 /\ root (h 2) = 7.
Proof.
  exists (fun p => match p with 1 => Node 2 2 1 0 | 2 => Node 1 1 7 0 | _ => Node 0 0 0 0 end).
  split; [|split; [split; reflexivity|split; [split; reflexivity|split; reflexivity]]].
  intros limit H. destruct limit as [|[|n]]; [lia|lia|]. split; reflexivity.
Qed.
Print Assumptions C49_all_roots_refuted.
