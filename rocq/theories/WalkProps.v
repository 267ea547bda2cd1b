(** Property C56. *)

From Coq Require Import ZArith List Bool Lia.
From Verif Require Import CUtil CInt StringModel WalkModel WalkSpec WalkProofs WalkProofs2.
Import ListNotations.
Local Open Scope Z_scope.

(** Whatever the file system answers and whatever the caller's function does: a walk never
    leaves its buffer; it visits everything, in order, each with its path and its depth,
    unless it stops, and then it has visited a prefix of everything; and what it returns
    tells how it ended. *)
Theorem C56_walk : forall S (f : S -> visit -> Z * S) real n s, node_ok n -> string_ok real ->
  exists rc s' h, walk (S * list (visit * Z)) (Some (noting f)) (Some real) n (s, []) = Some (rc, (s', h)) /\ ends n real [] 0 rc h.
Proof.
  intros S f real n s Ok Hr. unfold walk. assert (E : repeat 0 (Z.to_nat SIZE) = [] ++ 0 :: repeat 0 (Z.to_nat (SIZE - 1))).
  { cbn [app]. replace (Z.to_nat SIZE) with (Datatypes.S (Z.to_nat (SIZE - 1))) by (unfold SIZE; lia). reflexivity. }
  rewrite E. destruct (walker_ok S f n real [] (repeat 0 (Z.to_nat (SIZE - 1))) 0 s [] Ok Hr) as (rc & junk & s' & h & W & _ & _ & En).
  - intros [].
  - cbn [app length]. rewrite repeat_length. unfold SIZE. lia.
  - change (Z.of_nat (length (@nil Z))) with 0 in W. rewrite W. cbn [bind app]. exists rc, s', h. auto.
Qed.
Print Assumptions C56_walk.

(** So a walk with no trouble, in which all fits and each call returns zero, visits
    everything and returns zero; and one that returns zero did. *)
Corollary C56_complete : forall S (f : S -> visit -> Z * S) real n s rc s' h, node_ok n -> string_ok real ->
  walk (S * list (visit * Z)) (Some (noting f)) (Some real) n (s, []) = Some (rc, (s', h)) ->
  (rc = 0 <-> troubles n = [] /\ fits n real [] 0 /\ completed h) /\
  (rc = 0 -> map fst h = everything n real [] 0).
Proof.
  intros S f real n s rc s' h Ok Hr W. destruct (C56_walk S f real n s Ok Hr) as (rc' & s'' & h' & W' & En). rewrite W in W'. injection W' as <- <- <-. split.
  - split.
    + intros ->. destruct En as [(_ & _ & C & T & F)|(X & _)]; [auto|contradiction].
    + intros (T & F & C). destruct En as [(-> & _)|(_ & _ & [(k & (h' & v & -> & Nk & _) & _)|(_ & [I|(X & _)])])]; [reflexivity| | |contradiction].
      * exfalso. apply Forall_app in C as (_ & C). inversion C as [|? ? X]; subst. exact (Nk X).
      * rewrite T in I. destruct I.
  - intros ->. destruct En as [(_ & A & _)|(X & _)]; [exact A|contradiction].
Qed.
Print Assumptions C56_complete.

(** And a walk stops at the first call that does not return zero. *)
Corollary C56_stops : forall S (f : S -> visit -> Z * S) real n s rc s' h a v k b, node_ok n -> string_ok real ->
  walk (S * list (visit * Z)) (Some (noting f)) (Some real) n (s, []) = Some (rc, (s', h)) ->
  h = a ++ (v, k) :: b -> k <> 0 -> b = [] /\ (rc = k \/ In rc (troubles n)).
Proof.
  intros S f real n s rc s' h a v k b Ok Hr W Eh Nk. destruct (C56_walk S f real n s Ok Hr) as (rc' & s'' & h' & W' & En). rewrite W in W'. injection W' as <- <- <-.
  assert (NC : ~ completed h). { intros C. rewrite Eh in C. apply Forall_app in C as (_ & C). inversion C as [|? ? X]; subst. exact (Nk X). }
  destruct En as [(_ & _ & C & _)|(_ & _ & [(k' & (h' & v' & E & _ & C) & R)|(C & _)])]; [contradiction| |contradiction].
  assert (Eb : b = [] /\ k = k').
  { destruct b as [|y b].
    - rewrite Eh in E. apply app_inj_tail in E as (_ & E). injection E as _ <-. auto.
    - exfalso. rewrite Eh in E. destruct (exists_last (l := y :: b)) as (b' & z & Eb'); [discriminate|]. rewrite Eb' in E. replace (a ++ (v, k) :: b' ++ [z]) with ((a ++ (v, k) :: b') ++ [z]) in E by (rewrite <- app_assoc; reflexivity).
      apply app_inj_tail in E as (E & _). rewrite <- E in C. apply Forall_app in C as (_ & C). inversion C as [|? ? X]; subst. exact (Nk X). }
  destruct Eb as (-> & ->). auto.
Qed.
Print Assumptions C56_stops.

(** No path is visited twice, if no directory has two entries of the same name. *)
Theorem C56_once : forall S (f : S -> visit -> Z * S) real n s rc s' h, node_ok n -> string_ok real -> real <> [] -> proper n ->
  walk (S * list (visit * Z)) (Some (noting f)) (Some real) n (s, []) = Some (rc, (s', h)) -> NoDup (map v_path (map fst h)).
Proof.
  intros S f real n s rc s' h Ok Hr Ne Pr W. destruct (C56_walk S f real n s Ok Hr) as (rc' & s'' & h' & W' & En). rewrite W in W'. injection W' as <- <- <-.
  pose proof (once n real [] 0 Pr Ne) as O. assert (prefix (map fst h) (everything n real [] 0)) as (k & E).
  { destruct En as [(_ & -> & _)|(_ & P & _)]; [exists []; rewrite app_nil_r; reflexivity|exact P]. }
  rewrite E, map_app in O. clear -O. revert O. generalize (map v_path (map fst h)) as l. intros l. induction l as [|x l IH]; cbn [app]; intros O; [constructor|]. inversion O as [|? ? O1 O2]; subst. constructor; [|exact (IH O2)]. intros I. apply O1. apply in_or_app. left. exact I.
Qed.
Print Assumptions C56_once.

(** For those who call the walker themselves: within the buffer that holds a path, it does
    the same below that path, and if it returns zero the buffer holds that path again. *)
Theorem C56_walker : forall S (f : S -> visit -> Z * S) n name base j depth s, node_ok n -> string_ok name -> string_ok base -> length (base ++ 0 :: j) = Z.to_nat SIZE ->
  exists rc path s' h, walker (S * list (visit * Z)) (Some (noting f)) n name (base ++ 0 :: j) (Z.of_nat (length base)) depth (s, []) = Some (rc, path, (s', h)) /\
    ends n name base depth rc h /\ length path = Z.to_nat SIZE /\ (rc = 0 -> cstr path = Some base).
Proof.
  intros S f n name base j depth s Ok Hn Hb L. destruct (walker_ok S f n name base j depth s [] Ok Hn Hb L) as (rc & junk & s' & h & W & L' & J & En).
  exists rc, (base ++ junk), s', h. split; [exact W|]. split; [exact En|]. split; [exact L'|]. intros ->. destruct (J eq_refl) as (j' & ->). apply cstr_ok. exact Hb.
Qed.
Print Assumptions C56_walker.

(** To have no function is to have one that does nothing. *)
Theorem C56_no_function : forall S real n (s : S), walk S None real n s = walk S (Some (fun s _ => (0, s))) real n s.
Proof. intros S real n s. reflexivity. Qed.
Print Assumptions C56_no_function.

(** The tree /r with the entries ".", "a" (a directory with the file "b" in it), "..", "x" (gone
    when looked at) and "c". *)
Definition tree : node :=
  Seen 16877 None [([46], Unseen 2); ([97], Seen 16877 None [([98], Seen 33188 None [] false false)] false false); ([46; 46], Unseen 2); ([120], Unseen 2); ([99], Seen 33188 None [] false false)] false false.
Example C56_example : walk (unit * list (visit * Z)) (Some (noting (fun s _ => (0, s)))) (Some [47; 114]) tree (tt, []) =
  Some (0, (tt, [(Visit [47; 114] [47; 114] 0 16877, 0); (Visit [97] [47; 114; 47; 97] 1 16877, 0); (Visit [98] [47; 114; 47; 97; 47; 98] 2 33188, 0); (Visit [99] [47; 114; 47; 99] 1 33188, 0)])).
Proof. vm_compute. reflexivity. Qed.
Example C56_example_root : walk (unit * list (visit * Z)) (Some (noting (fun s v => (v_depth v, s)))) (Some [47]) tree (tt, []) =
  Some (1, (tt, [(Visit [47] [47] 0 16877, 0); (Visit [97] [47; 97] 1 16877, 1)])).
Proof. vm_compute. reflexivity. Qed.
Example C56_example_hypotheses : node_ok tree /\ proper tree /\ string_ok [47; 114] /\ troubles tree = [] /\ fits tree [47; 114] [] 0.
Proof.
  assert (L : forall x l, In x l <-> List.existsb (Z.eqb x) l = true) by (intros x l; rewrite existsb_exists; split; [intros H; exists x; rewrite Z.eqb_refl; auto|intros (y & H & E); apply Z.eqb_eq in E; congruence]).
  unfold string_ok, tree. cbn [node_ok proper each fits map fst]. unfold string_ok. repeat split; try (rewrite L; discriminate); try discriminate; try (vm_compute; discriminate).
  all: repeat constructor; rewrite ?in_map_iff; cbn; intuition discriminate.
Qed.

(** A name that the file system allows, in a directory that it allows, may not fit: the walk
    ends with an error although none of the answers was one. Here the path would have 4095
    octets and its NUL, so that it would fit into the buffer; but one octet more is asked
    for, for a slash that the path already has. *)
Theorem C56_fit_refuted : forall name, Z.of_nat (length name) = 4094 -> string_ok name ->
  Z.of_nat (length (join [47] name ++ [0])) = SIZE /\
  let n := Seen 16877 None [(name, Seen 33188 None [] false false)] false false in
  troubles n = [] /\
  exists rc s' h, walk (unit * list (visit * Z)) (Some (noting (fun s _ => (0, s)))) (Some [47]) n (tt, []) = Some (rc, (s', h)) /\ rc <> 0.
Proof.
  intros name L Ok. split; [cbn; rewrite app_length; cbn [length]; unfold SIZE; lia|]. intros n.
  assert (D : no_entry name = false) by (rewrite <- is_dot_spec; destruct name as [|x [|y [|z t]]]; cbn [length] in L; try lia; cbn; repeat match goal with |- context [match ?z with _ => _ end] => destruct z end; reflexivity).
  split; [unfold n; cbn [troubles flat_map]; rewrite D; reflexivity|].
  assert (Nk : node_ok n) by (cbn; auto). assert (Rk : string_ok [47]) by (intros [X|[]]; discriminate).
  destruct (C56_walk unit (fun s _ => (0, s)) [47] n tt Nk Rk) as (rc & s' & h & W & En). exists rc, s', h. split; [exact W|]. intros ->.
  pose proof (proj1 (proj1 (C56_complete unit _ [47] n tt 0 s' h Nk Rk W)) eq_refl) as (_ & F & _). unfold n in F. cbn [fits] in F. change (directory 16877) with true in F. cbn [each] in F. destruct F as (_ & _ & _ & F & _). destruct (F D) as (_ & F' & _). unfold SIZE in F'. cbn [length join] in F'. lia.
Qed.
Print Assumptions C56_fit_refuted.
