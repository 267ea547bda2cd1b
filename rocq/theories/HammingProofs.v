From Coq Require Import ZArith List Bool Lia.
From Verif Require Import CInt CUtil HammingModel.
Import ListNotations.
Local Open Scope Z_scope.

Definition eqp (p q : Z * Z) : bool := (fst p =? fst q) && (snd p =? snd q).
Lemma eqp_eq p q : eqp p q = true -> p = q.
Proof.
  destruct p, q. unfold eqp. cbn. rewrite andb_true_iff, !Z.eqb_eq. intros [-> ->]. reflexivity.
Qed.

Lemma no_error nib : 0 <= nib < 16 -> sym2nib (nib2sym nib) = (nib, 0).
Proof.
  intros H. apply eqp_eq. revert nib H.
  apply (all_below 16 (fun nib => eqp (sym2nib (nib2sym nib)) (nib, 0))). vm_compute. reflexivity.
Qed.

Lemma single_corrected nib i :
  0 <= nib < 16 -> 0 <= i < 8 -> sym2nib (Z.lxor (nib2sym nib) (2 ^ i)) = (nib, 1).
Proof.
  intros H1 H2. apply eqp_eq. revert nib i H1 H2.
  apply (all_below2 16 8 (fun nib i => eqp (sym2nib (Z.lxor (nib2sym nib) (2 ^ i))) (nib, 1))).
  vm_compute. reflexivity.
Qed.

Lemma double_detected nib i j :
  0 <= nib < 16 -> 0 <= i < 8 -> 0 <= j < 8 -> i <> j ->
  sym2nib (Z.lxor (Z.lxor (nib2sym nib) (2 ^ i)) (2 ^ j)) = (0, 2).
Proof.
  intros H1 H2 H3 N. apply eqp_eq.
  assert (X : forallb (fun j => (i =? j) || eqp (sym2nib (Z.lxor (Z.lxor (nib2sym nib) (2 ^ i)) (2 ^ j))) (0, 2)) (below 8) = true).
  { revert nib i H1 H2 N.
    assert (Y : forall nib i, 0 <= nib < 16 -> 0 <= i < 8 -> forallb (fun j => (i =? j) || eqp (sym2nib (Z.lxor (Z.lxor (nib2sym nib) (2 ^ i)) (2 ^ j))) (0, 2)) (below 8) = true).
    { apply (all_below2 16 8 (fun nib i => forallb (fun j => (i =? j) || eqp (sym2nib (Z.lxor (Z.lxor (nib2sym nib) (2 ^ i)) (2 ^ j))) (0, 2)) (below 8))).
      vm_compute. reflexivity. }
    auto. }
  pose proof (all_below 8 _ X j H3) as Z. cbv beta in Z.
  apply orb_prop in Z. destruct Z as [Z|Z]; [apply Z.eqb_eq in Z; contradiction|exact Z].
Qed.

Definition decoder_ok (sym : Z) : bool :=
  let '(nib, e) := sym2nib sym in
  if e =? 0 then (0 <=? nib) && (nib <? 16) && (sym =? nib2sym nib)
  else if e =? 1 then (0 <=? nib) && (nib <? 16) && existsb (fun i => sym =? Z.lxor (nib2sym nib) (2 ^ i)) (below 8)
  else (e =? 2) && (nib =? 0) &&
    forallb (fun n => negb (sym =? nib2sym n) && forallb (fun i => negb (sym =? Z.lxor (nib2sym n) (2 ^ i))) (below 8)) (below 16).

Lemma decoder_complete sym : is_u8 sym ->
  match sym2nib sym with
  | (nib, 0) => 0 <= nib < 16 /\ sym = nib2sym nib
  | (nib, 1) => 0 <= nib < 16 /\ exists i, 0 <= i < 8 /\ sym = Z.lxor (nib2sym nib) (2 ^ i)
  | (nib, 2) => nib = 0 /\ forall n, 0 <= n < 16 -> sym <> nib2sym n /\
                 forall i, 0 <= i < 8 -> sym <> Z.lxor (nib2sym n) (2 ^ i)
  | _ => False
  end.
Proof.
  intros H.
  assert (D : decoder_ok sym = true).
  { revert sym H. apply (all_below 256 decoder_ok). vm_compute. reflexivity. }
  unfold decoder_ok in D. destruct (sym2nib sym) as [nib e].
  destruct (e =? 0) eqn:E0.
  { apply Z.eqb_eq in E0. subst e. rewrite !andb_true_iff, Z.leb_le, Z.ltb_lt, Z.eqb_eq in D. tauto. }
  destruct (e =? 1) eqn:E1.
  { apply Z.eqb_eq in E1. subst e. rewrite !andb_true_iff, Z.leb_le, Z.ltb_lt, existsb_exists in D.
    destruct D as (D1 & i & D2 & D3). apply Z.eqb_eq in D3. split; [exact D1|]. exists i. split; [|exact D3].
    unfold below in D2. apply in_map_iff in D2. destruct D2 as (k & <- & D2). apply in_seq in D2. lia. }
  rewrite !andb_true_iff, !Z.eqb_eq in D. destruct D as ((-> & ->) & D).
  split; [reflexivity|]. intros n Hn. pose proof (all_below 16 _ D n Hn) as X. cbv beta in X.
  apply andb_true_iff in X. destruct X as [X1 X2]. apply negb_true_iff, Z.eqb_neq in X1.
  split; [exact X1|]. intros i Hi. pose proof (all_below 8 _ X2 i Hi) as Y. cbv beta in Y.
  apply negb_true_iff, Z.eqb_neq in Y. exact Y.
Qed.

Lemma encoder_range nib : is_u8 nib -> nib2sym nib = nib2sym (nib mod 16) /\ is_u8 (nib2sym nib).
Proof.
  intros H.
  assert (D : (nib2sym nib =? nib2sym (nib mod 16)) && (0 <=? nib2sym nib) && (nib2sym nib <? 256) = true).
  { revert nib H. apply (all_below 256 (fun nib => (nib2sym nib =? nib2sym (nib mod 16)) && (0 <=? nib2sym nib) && (nib2sym nib <? 256))).
    vm_compute. reflexivity. }
  rewrite !andb_true_iff, Z.eqb_eq, Z.leb_le, Z.ltb_lt in D. unfold is_u8. tauto.
Qed.
