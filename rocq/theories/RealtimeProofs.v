(** Proofs about the number in a file. *)

From Coq Require Import ZArith List Bool Lia.
From Verif Require Import CInt CUtil RealtimeModel RealtimeSpec.
Import ListNotations.
Local Open Scope Z_scope.

Lemma space_iff c : space c = true <-> is_space c.
Proof. unfold space, is_space. rewrite orb_true_iff, andb_true_iff, Z.eqb_eq, !Z.leb_le. reflexivity. Qed.
Lemma digit_iff c : digit c = true <-> is_digit c.
Proof. unfold digit, is_digit. rewrite andb_true_iff, !Z.leb_le. reflexivity. Qed.

Lemma skip_split cs : exists white, cs = white ++ skip cs /\ Forall is_space white.
Proof.
  induction cs as [|c cs (w & E & F)]; [exists []; split; [reflexivity|constructor]|]. cbn [skip]. destruct (space c) eqn:S.
  - exists (c :: w). cbn [app]. rewrite <- E. split; [reflexivity|]. constructor; [apply space_iff, S|exact F].
  - exists []. split; [reflexivity|constructor].
Qed.
Lemma skip_head cs c r : skip cs = c :: r -> space c = false.
Proof. induction cs as [|x cs IH]; cbn [skip]; [discriminate|]. destruct (space x) eqn:S; [exact IH|]. intros E. injection E as -> _. exact S. Qed.
Lemma skip_white w cs : Forall is_space w -> skip (w ++ cs) = skip cs.
Proof. induction 1 as [|c w H F IH]; [reflexivity|]. cbn [app skip]. apply space_iff in H. rewrite H. exact IH. Qed.

Lemma take_split cs : exists rest, cs = take cs ++ rest /\ Forall is_digit (take cs) /\ (forall c r, rest = c :: r -> ~ is_digit c).
Proof.
  induction cs as [|c cs (r & E & F & N)]; [exists []; repeat split; [constructor|discriminate]|]. cbn [take]. destruct (digit c) eqn:D.
  - exists r. cbn [app]. rewrite <- E. repeat split; [constructor; [apply digit_iff, D|exact F]|exact N].
  - exists (c :: cs). repeat split; [constructor|]. intros c' r' X. injection X as <- _. rewrite <- digit_iff. congruence.
Qed.
Lemma take_app ds rest : Forall is_digit ds -> (forall c r, rest = c :: r -> ~ is_digit c) -> take (ds ++ rest) = ds.
Proof.
  intros F N. induction F as [|d ds H F IH]; cbn [app take].
  - destruct rest as [|c r]; [reflexivity|]. cbn [take]. destruct (digit c) eqn:D; [|reflexivity]. apply digit_iff in D. destruct (N c r eq_refl D).
  - apply digit_iff in H. rewrite H, IH. reflexivity.
Qed.

Lemma digits_of_value ds n : digits_of ds n -> ds <> [] /\ Forall is_digit ds /\ value ds = n.
Proof.
  induction 1 as [d D|ds n d H (N & F & V) D]; [split; [discriminate|]; split; [apply Forall_cons; [exact D|apply Forall_nil]|unfold value; cbn [fold_left]; lia]|].
  split; [destruct ds; discriminate|]. split; [apply Forall_app; split; [exact F|apply Forall_cons; [exact D|apply Forall_nil]]|]. unfold value in *. rewrite fold_left_app, V. reflexivity.
Qed.
Lemma value_digits_of ds : ds <> [] -> Forall is_digit ds -> digits_of ds (value ds).
Proof.
  induction ds as [|d ds IH] using rev_ind; [congruence|]. intros _ F. apply Forall_app in F. destruct F as (F & D). inversion_clear D. unfold value. rewrite fold_left_app. cbn [fold_left].
  destruct ds as [|x ds]; [|apply More; [apply IH; [discriminate|exact F]|assumption]]. cbn [app fold_left]. replace (10 * 0 + (d - 48)) with (d - 48) by lia. apply Ones. assumption.
Qed.

Lemma convert_iff s cs n : convert s cs = Number n <-> exists ds m rest, cs = ds ++ rest /\ digits_of ds m /\ (forall c r, rest = c :: r -> ~ is_digit c) /\ n = s * m.
Proof.
  unfold convert. split.
  - destruct (take_split cs) as (rest & E & F & N). destruct (take cs) as [|d ds] eqn:T; [discriminate|]. intros X. injection X as <-. exists (d :: ds), (value (d :: ds)), rest.
    repeat split; [exact E|apply value_digits_of; [discriminate|exact F]|exact N].
  - intros (ds & m & rest & -> & D & N & ->). apply digits_of_value in D. destruct D as (NE & F & V). rewrite (take_app ds rest F N). destruct ds; [congruence|]. rewrite V. reflexivity.
Qed.

Lemma digits_head ds m : digits_of ds m -> exists d r, ds = d :: r /\ is_digit d.
Proof. intros D. apply digits_of_value in D. destruct D as (NE & F & _). destruct ds as [|d r]; [congruence|]. inversion_clear F. eauto. Qed.

Lemma fscanf_number cs n : fscanf cs = Number n <-> begins_with cs n.
Proof.
  unfold fscanf, begins_with. split.
  - destruct (skip_split cs) as (w & E & W). destruct (skip cs) as [|c r] eqn:K; [discriminate|]. rewrite E. clear E K.
    destruct (Z.eqb_spec c 45) as [->|]; [|destruct (Z.eqb_spec c 43) as [->|]]; intros X; apply convert_iff in X; destruct X as (ds & m & rest & E & D & N & V).
    + exists w, [45], (-1), ds, m, rest. rewrite E. repeat split; try assumption. constructor.
    + exists w, [43], 1, ds, m, rest. rewrite E. repeat split; try assumption. constructor.
    + exists w, [], 1, ds, m, rest. rewrite E. repeat split; try assumption. constructor.
  - intros (w & sg & s & ds & m & rest & -> & W & S & D & N & ->). rewrite (skip_white w _ W). destruct S; cbn [app].
    + destruct (digits_head ds m D) as (d & r & E & I). assert (X : convert 1 (ds ++ rest) = Number (1 * m)) by (apply convert_iff; exists ds, m, rest; repeat split; assumption).
      rewrite E in *. cbn [app skip] in *. assert (NS : space d = false). { destruct (space d) eqn:Q; [|reflexivity]. apply space_iff in Q. unfold is_space, is_digit in *. lia. }
      rewrite NS. unfold is_digit in I. destruct (Z.eqb_spec d 45); [lia|]. destruct (Z.eqb_spec d 43); [lia|]. exact X.
    + cbn. apply convert_iff. exists ds, m, rest. repeat split; assumption.
    + cbn. apply convert_iff. exists ds, m, rest. repeat split; assumption.
Qed.

Lemma fscanf_eof cs : fscanf cs = Eof <-> blank cs.
Proof.
  unfold fscanf, blank. split.
  - destruct (skip_split cs) as (w & E & W). destruct (skip cs) as [|c r]; [intros _; rewrite E, app_nil_r; exact W|].
    unfold convert. destruct (c =? 45), (c =? 43); destruct (take _); discriminate.
  - intros W. rewrite <- (app_nil_r cs), (skip_white cs [] W). reflexivity.
Qed.
