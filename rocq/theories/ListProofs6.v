From Coq Require Import ZArith List Bool Arith Lia Permutation.
From Verif Require Import CUtil ListModel ListSpec ListProofs ListProofs2 ListProofs3 ListProofs4.
Import ListNotations.
Local Open Scope nat_scope.

Lemma in_first (y : nat) (r : list nat) rs : In y r -> In y (concat (r :: rs)).
Proof. intros H. cbn. apply in_or_app. left. exact H. Qed.
Lemma in_rest (y : nat) (r : list nat) rs : In y (concat rs) -> In y (concat (r :: rs)).
Proof. intros H. cbn. apply in_or_app. right. exact H. Qed.
Lemma list_of_first h x l1 l2 rs : represents h ((l1 ++ x :: l2) :: rs) -> list_of x ((l1 ++ x :: l2) :: rs) = l1 ++ x :: l2.
Proof. intros R. exact (list_of_mid x [] l1 l2 rs (proj1 R)). Qed.
Lemma list_of_head h s r rs : represents h (r :: rs) -> In s r -> list_of s (r :: rs) = r.
Proof. intros R I. apply in_split in I as (l1 & l2 & ->). apply (list_of_first h), R. Qed.
Lemma detach_first h x l1 l2 rs : represents h ((l1 ++ x :: l2) :: rs) -> detach x ((l1 ++ x :: l2) :: rs) = ne (l1 ++ l2) ++ rs.
Proof.
  intros R. apply (detach_mid x [] l1 l2 rs (proj1 R)). apply (nonempties h). exact (Forall_inv_tail (proj2 R)).
Qed.
Lemma disj_first h r rs x : represents h (r :: rs) -> In x (concat rs) -> ~ In x r.
Proof. intros (N & _) I H. exact (nodup_disj _ _ _ N H I). Qed.
Lemma detach_rest h x r rs : represents h (r :: rs) -> In x (concat rs) -> detach x (r :: rs) = r :: detach x rs.
Proof.
  intros R I. unfold detach. cbn [map filter]. rewrite without_id by (apply (disj_first h r rs x R I)).
  destruct r as [|y r]; [destruct (proj1 (Forall_inv (proj2 R)) eq_refl)|reflexivity].
Qed.
Lemma nodup_detach x (rs : list (list nat)) p : In p (concat (detach x rs)) -> In p (concat rs).
Proof.
  unfold detach. intros H. apply in_concat in H as (r & H1 & H2). apply filter_In in H1 as (H1 & _). apply in_map_iff in H1 as (r' & <- & H1).
  apply filter_In in H2 as (H2 & _). apply in_concat. exists r'. auto.
Qed.
Lemma place_rest h p x l1 l2 rs : represents h ((l1 ++ p :: l2) :: rs) -> In x (concat rs) ->
  s_insert p x ((l1 ++ p :: l2) :: rs) = (l1 ++ p :: x :: l2) :: detach x rs.
Proof.
  intros R I. pose proof (disj_first h _ _ _ R I) as D. unfold s_insert.
  destruct (Nat.eqb_spec p x) as [->|_]; [exfalso; apply D, in_or_app; right; left; reflexivity|].
  rewrite (detach_rest h) by assumption. cbn [map]. f_equal.
  - apply (place_mid p [x]). destruct R as (N & _). cbn in N. exact (nodup_l _ _ N).
  - rewrite (map_ext_in _ (fun r => r)); [apply map_id|]. intros r Hr. apply place_id. intros Hp.
    assert (Ip : In p (concat rs)) by (apply (nodup_detach x), in_concat; exists r; auto).
    apply (disj_first h _ _ _ R Ip), in_or_app. right. left. reflexivity.
Qed.

Lemma step_some fuel h o rs rs' x : represents h rs -> Forall (fun x => In x (concat rs)) (operands o) -> length (concat rs) <= fuel -> s_step rs o = (rs', x) ->
  exists h', step fuel h o = Some (h', x) /\ represents h' rs' /\ Permutation (concat rs) (concat rs').
Proof.
  intros R F L E. destruct (step_ok fuel h o rs R F L) as (h' & E1 & R1 & P1 & _). rewrite E in *. exists h'. auto.
Qed.

Lemma push_step fuel h rt l rs s x : represents h ((rt :: l) :: rs) -> In s (rt :: l) -> In x (concat rs) -> length (concat ((rt :: l) :: rs)) <= fuel ->
  exists h', step fuel h (Push s x) = Some (h', x) /\ represents h' ((rt :: x :: l) :: detach x rs).
Proof.
  intros R Is Ix L. destruct (step_some fuel h (Push s x) _ ((rt :: x :: l) :: detach x rs) x R) as (h' & E & R' & _); [|exact L| |exists h'; auto].
  - constructor; [apply in_first, Is|constructor; [apply in_rest, Ix|constructor]].
  - cbn [s_step]. rewrite (list_of_head h) by assumption. cbn [hd]. pose proof (place_rest h rt x [] l rs R Ix) as PR. cbn [app] in PR. rewrite PR. reflexivity.
Qed.
Lemma enqueue_step fuel h rt l rs s x : represents h ((rt :: l) :: rs) -> In s (rt :: l) -> In x (concat rs) -> length (concat ((rt :: l) :: rs)) <= fuel ->
  exists h', step fuel h (Enqueue s x) = Some (h', x) /\ represents h' ((rt :: l ++ [x]) :: detach x rs).
Proof.
  intros R Is Ix L. destruct (step_some fuel h (Enqueue s x) _ ((rt :: l ++ [x]) :: detach x rs) x R) as (h' & E & R' & _); [|exact L| |exists h'; auto].
  - constructor; [apply in_first, Is|constructor; [apply in_rest, Ix|constructor]].
  - cbn [s_step]. rewrite (list_of_head h) by assumption. destruct (exists_last (l := rt :: l) ltac:(discriminate)) as (l' & b & El). rewrite El in *.
    rewrite last_last, (place_rest h b x l' [] rs R Ix). change (rt :: l ++ [x]) with ((rt :: l) ++ [x]). rewrite El, <- app_assoc. reflexivity.
Qed.
Lemma pop_spec h rt x l rs s : represents h ((rt :: x :: l) :: rs) -> In s (rt :: x :: l) -> s_step ((rt :: x :: l) :: rs) (Pop s) = ([x] :: (rt :: l) :: rs, x).
Proof.
  intros R Is. cbn [s_step]. rewrite (list_of_head h) by assumption. unfold s_remove. pose proof (detach_first h x [rt] l rs R) as PR. cbn [app] in PR. rewrite PR. reflexivity.
Qed.
Lemma pop_step fuel h rt x l rs s : represents h ((rt :: x :: l) :: rs) -> In s (rt :: x :: l) -> length (concat ((rt :: x :: l) :: rs)) <= fuel ->
  exists h', step fuel h (Pop s) = Some (h', x) /\ represents h' ([x] :: (rt :: l) :: rs).
Proof.
  intros R Is L. destruct (step_some fuel h (Pop s) _ ([x] :: (rt :: l) :: rs) x R) as (h' & E & R' & _); [|exact L|apply (pop_spec h); eassumption|exists h'; auto].
  constructor; [apply in_first, Is|constructor].
Qed.
Lemma pop_empty fuel h rt rs : represents h ([rt] :: rs) -> pop fuel h rt = Some (h, NULL).
Proof. intros R. destruct (single_next h rt rs R) as (A1 & _ & A3). unfold pop, isempty. rewrite A3, A1, Nat.eqb_refl. reflexivity. Qed.

(** * Queues and stacks *)
Definition sing (xs : list nat) : list (list nat) := map (fun x => [x]) xs.
Lemma detach_sing h x xs rs r : represents h (r :: sing (x :: xs) ++ rs) -> detach x (sing (x :: xs) ++ rs) = sing xs ++ rs.
Proof.
  intros (N & R). assert (R' : represents h (([] ++ x :: []) :: sing xs ++ rs)).
  { split; [cbn in N; exact (nodup_r _ _ N)|]. exact (Forall_inv_tail R). }
  exact (detach_first h x [] [] _ R').
Qed.
Lemma concat_len_perm h h' (a b : list (list nat)) : represents h a -> represents h' b -> (forall y, In y (concat a) <-> In y (concat b)) -> length (concat a) = length (concat b).
Proof. intros (N1 & _) (N2 & _) H. apply Permutation_length, NoDup_Permutation; assumption. Qed.

Lemma enqueue_all fuel q rs : forall xs l h, represents h ((q :: l) :: sing xs ++ rs) -> length (concat ((q :: l) :: sing xs ++ rs)) <= fuel ->
  exists h', run fuel h (map (Enqueue q) xs) = Some (h', xs) /\ represents h' ((q :: l ++ xs) :: rs).
Proof.
  induction xs as [|x xs IH]; intros l h R L; [exists h; rewrite app_nil_r; auto|].
  assert (Ix : In x (concat (sing (x :: xs) ++ rs))) by (cbn; left; reflexivity).
  destruct (enqueue_step fuel h q l _ q x R (or_introl eq_refl) Ix L) as (h1 & E1 & R1). rewrite (detach_sing h x xs rs _ R) in R1.
  destruct (IH (l ++ [x]) h1 R1) as (h2 & E2 & R2).
  - assert (P : length (concat ((q :: l ++ [x]) :: sing xs ++ rs)) = length (concat ((q :: l) :: sing (x :: xs) ++ rs))).
    { change (sing (x :: xs) ++ rs) with ([x] :: (sing xs ++ rs)). cbn [concat]. rewrite !app_length. cbn [length]. rewrite ?app_length. cbn [length]. lia. }
    rewrite P. exact L.
  - exists h2. cbn [map run]. rewrite E1. cbn [bind]. rewrite E2. cbn [bind]. split; [reflexivity|]. rewrite <- app_assoc in R2. exact R2.
Qed.
Lemma push_all fuel q rs : forall xs l h, represents h ((q :: l) :: sing xs ++ rs) -> length (concat ((q :: l) :: sing xs ++ rs)) <= fuel ->
  exists h', run fuel h (map (Push q) xs) = Some (h', xs) /\ represents h' ((q :: rev xs ++ l) :: rs).
Proof.
  induction xs as [|x xs IH]; intros l h R L; [exists h; auto|].
  assert (Ix : In x (concat (sing (x :: xs) ++ rs))) by (cbn; left; reflexivity).
  destruct (push_step fuel h q l _ q x R (or_introl eq_refl) Ix L) as (h1 & E1 & R1). rewrite (detach_sing h x xs rs _ R) in R1.
  destruct (IH (x :: l) h1 R1) as (h2 & E2 & R2).
  - change (sing (x :: xs) ++ rs) with ([x] :: (sing xs ++ rs)) in L. cbn [concat] in *. rewrite !app_length in *. cbn [length] in *. lia.
  - exists h2. cbn [map run]. rewrite E1. cbn [bind]. rewrite E2. cbn [bind]. split; [reflexivity|]. cbn [rev]. rewrite <- app_assoc. exact R2.
Qed.
Lemma pop_all fuel q o : (o = Pop q \/ o = Dequeue q) -> forall xs rs h, represents h ((q :: xs) :: rs) -> length (concat ((q :: xs) :: rs)) <= fuel ->
  exists h', run fuel h (repeat o (length xs)) = Some (h', xs) /\ represents h' ([q] :: sing (rev xs) ++ rs).
Proof.
  intros Ho. induction xs as [|x xs IH]; intros rs h R L; [exists h; auto|].
  destruct (pop_step fuel h q x xs rs q R (or_introl eq_refl) L) as (h1 & E1 & R1).
  assert (E1' : step fuel h o = Some (h1, x)) by (destruct Ho as [-> | ->]; exact E1).
  assert (P : Permutation ([x] :: (q :: xs) :: rs) ((q :: xs) :: [x] :: rs)) by apply perm_swap.
  destruct (IH ([x] :: rs) h1 (represents_perm _ _ _ P R1)) as (h2 & E2 & R2).
  - cbn [concat] in *. rewrite !app_length in *. cbn [length] in *. lia.
  - exists h2. cbn [length repeat run]. rewrite E1'. cbn [bind]. rewrite E2. cbn [bind]. split; [reflexivity|].
    cbn [rev]. unfold sing. rewrite map_app, <- app_assoc. exact R2.
Qed.
Lemma run_app fuel : forall a b h h1 h2 xs ys, run fuel h a = Some (h1, xs) -> run fuel h1 b = Some (h2, ys) -> run fuel h (a ++ b) = Some (h2, xs ++ ys).
Proof.
  induction a as [|o a IH]; intros b h h1 h2 xs ys E1 E2; cbn [run] in E1.
  - injection E1 as <- <-. exact E2.
  - cbn [app run]. destruct (step fuel h o) as [(h0, x)|]; [|discriminate]. cbn [bind] in *. destruct (run fuel h0 a) as [(h0', xs')|] eqn:E; [|discriminate].
    cbn [bind] in E1. injection E1 as <- <-. rewrite (IH b h0 h0' h2 xs' ys E E2). reflexivity.
Qed.
