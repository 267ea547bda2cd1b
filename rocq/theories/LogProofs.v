(** The log. *)

From Coq Require Import ZArith List Bool Lia.
From Verif Require Import CUtil CInt NumberModel NumberSpec NumberProofs LogModel LogSpec.
Import ListNotations.
Local Open Scope Z_scope.

Lemma enabled_ok mask p : 0 <= p <= 7 -> priority_isenabled mask p = Z.testbit mask (7 - p).
Proof.
  intros H. unfold priority_isenabled, mask_isenabled. assert (E : priority2mask p = 2 ^ (7 - p)).
  { assert (C : p = 0 \/ p = 1 \/ p = 2 \/ p = 3 \/ p = 4 \/ p = 5 \/ p = 6 \/ p = 7) by lia. destruct C as [-> |[-> |[-> |[-> |[-> |[-> |[-> | -> ]]]]]]]; reflexivity. }
  rewrite E. set (k := 7 - p). assert (0 <= k) by lia. destruct (Z.testbit mask k) eqn:T.
  - apply negb_true_iff, Z.eqb_neq. intros X. assert (Y : Z.testbit (Z.land mask (2 ^ k)) k = false) by (rewrite X; apply Z.bits_0). rewrite Z.land_spec, T, Z.pow2_bits_true in Y by lia. discriminate.
  - apply negb_false_iff, Z.eqb_eq. apply Z.bits_inj'. intros i Hi. rewrite Z.land_spec, Z.bits_0. destruct (Z.eq_dec i k) as [-> |N]; [rewrite T; reflexivity|]. rewrite Z.pow2_bits_false by congruence. apply andb_false_r.
Qed.

Lemma starts_ok s p : starts s p = true <-> exists r, s = p ++ r.
Proof.
  revert s. induction p as [|x p IH]; intros s; [split; [intros _; exists s; reflexivity|destruct s; reflexivity]|]. destruct s as [|y s]; cbn [starts].
  - split; [discriminate|intros (r & E); discriminate].
  - rewrite andb_true_iff, Z.eqb_eq, IH. split; [intros (-> & r & ->); exists r; reflexivity|]. intros (r & E). cbn [app] in E. injection E as -> ->. eauto.
Qed.
Lemma same_ok s p : same s p = true <-> s = p.
Proof.
  unfold same. rewrite andb_true_iff, starts_ok, Nat.eqb_eq. split; [|intros ->; split; [exists []; rewrite app_nil_r; reflexivity|reflexivity]].
  intros ((r & ->) & L). rewrite app_length in L. destruct r; [apply app_nil_r|cbn [length] in L; lia].
Qed.
Lemma numeral_hd n s : numeral s n -> s <> [] /\ hd 0 s <> 126.
Proof.
  intros [sp b m F B|sp b m F B|sp b m F B]; destruct (body_first b m B) as (c & t & -> & C & _); destruct sp as [|x sp]; cbn [app hd]; (split; [discriminate|]); try lia; pose proof (Forall_inv F) as I; cbn [In] in I; lia.
Qed.
Lemma s32_id v : 0 <= v < 2147483648 -> s32 v = v.
Proof. intros H. unfold s32. rewrite Z.mod_small by lia. lia. Qed.
Lemma setmask_numeral s n mask : numeral s n -> 0 <= n < 2 ^ 31 -> setmask (Some s) mask = n.
Proof.
  intros H B. unfold setmask. destruct (same s ALL) eqn:E.
  - apply same_ok in E. subst s. exfalso. apply (numeral_hd n ALL H). reflexivity.
  - pose proof (strtoll_ok s n [] H I) as S. rewrite app_nil_r in S. rewrite S. change (2 ^ 31) with 2147483648 in B. unfold clip. destruct (Z.ltb_spec (Z.max (-9223372036854775808) (Z.min 9223372036854775807 n)) 0); [lia|]. rewrite s32_id by lia. lia.
Qed.
Lemma setmask_other s mask : s <> [] -> s <> ALL -> (forall n, 0 <= n -> ~ numeral s n) -> setmask (Some s) mask = mask.
Proof.
  intros N A H. unfold setmask. destruct (same s ALL) eqn:E; [apply same_ok in E; contradiction|]. destruct (strto_inv s) as [(_ & L & _)|(a & rest & n & Es & Na & Nu & R & _ & V & _)].
  - rewrite L. cbn. destruct s; [contradiction|reflexivity].
  - destruct (strtoll s) as [v r]. cbn [fst snd] in R, V. subst r v. destruct (Z.ltb_spec (clip (-9223372036854775808) 9223372036854775807 n) 0) as [L|L]; [reflexivity|]. destruct rest as [|x rest]; [|reflexivity]. exfalso. rewrite app_nil_r in Es. subst a. apply (H n); [unfold clip in L; lia|exact Nu].
Qed.

Lemma fgets_ok n : forall s rest, ~ In 10 s -> (length s <= n)%nat -> exists r, fgets n (s ++ rest) = s ++ r /\ (r = [] \/ (rest <> [] /\ r <> [] /\ hd 0 r = hd 0 rest)).
Proof.
  induction n as [|n IH]; intros s rest N L.
  - destruct s; [|cbn [length] in L; lia]. exists []. auto.
  - destruct s as [|c s].
    + cbn [app]. destruct rest as [|c rest]; [exists []; auto|]. cbn [fgets]. destruct (c =? 10); eexists; (split; [reflexivity|right; repeat split; discriminate]).
    + cbn [app fgets]. destruct (Z.eqb_spec c 10) as [-> |]; [exfalso; apply N; left; reflexivity|]. destruct (IH s rest) as (r & E & H); [intros X; apply N; right; exact X|cbn [length] in L; lia|]. exists r. rewrite E. auto.
Qed.
Lemma fgets_prefix n : forall l, exists r, l = fgets n l ++ r.
Proof.
  induction n as [|n IH]; intros l; [exists l; reflexivity|]. destruct l as [|c l]; [exists []; reflexivity|]. cbn [fgets]. destruct (Z.eqb_spec c 10) as [-> |]; [exists l; reflexivity|]. destruct (IH l) as (r & E). exists r. cbn [app]. rewrite <- E. reflexivity.
Qed.
Lemma importmask_numeral s n rest mask : numeral s n -> 0 <= n < 2 ^ 31 -> stops rest -> ~ In 10 s -> (length s <= 80)%nat -> importmask (Some (s ++ rest)) mask = n.
Proof.
  intros H B St N10 L. unfold importmask. destruct (numeral_hd n s H) as [Ne _].
  destruct (s ++ rest) as [|c t] eqn:Est; [apply app_eq_nil in Est; destruct Est; contradiction|]. rewrite <- Est. clear c t Est.
  destruct (fgets_ok 80 s rest N10 L) as (r & -> & Hr).
  assert (Sr : stops r) by (destruct Hr as [-> |(Nr & Nr2 & E)]; [left; reflexivity|right; rewrite E; destruct St as [X|X]; [contradiction|exact X]]).
  destruct (starts (s ++ r) ALL) eqn:E.
  - exfalso. apply starts_ok in E. destruct E as (q & E). destruct (numeral_hd n s H) as [_ X].
    destruct s as [|x s]; [contradiction|]. cbn [app ALL hd] in *. congruence.
  - assert (En : ends r) by (destruct r as [|c r]; [exact I|]; destruct Sr as [X|X]; [discriminate|]; cbn [hd In] in X; cbn [ends]; lia).
    rewrite (strtoll_ok s n r H En). change (2 ^ 31) with 2147483648 in B. unfold clip. destruct (Z.ltb_spec (Z.max (-9223372036854775808) (Z.min 9223372036854775807 n)) 0); [lia|]. rewrite s32_id by lia.
    replace (Z.max (-9223372036854775808) (Z.min 9223372036854775807 n)) with n by lia. destruct r as [|c r]; [reflexivity|]. destruct Sr as [X|X]; [discriminate|]. cbn [hd In] in X. assert ((c =? 10) || (c =? 32) || (c =? 9) || (c =? 35) = true) as ->; [|reflexivity]. destruct X as [<- |[<- |[<- |[<- |[]]]]]; reflexivity.
Qed.
Lemma importmask_only f mask : importmask (Some f) mask <> mask ->
  ((exists r, f = 126 :: 48 :: r) /\ importmask (Some f) mask = 255) \/
  (exists s rest n, f = s ++ rest /\ numeral s n /\ 0 <= n /\ importmask (Some f) mask = s32 (clip (-9223372036854775808) 9223372036854775807 n)) \/
  (f <> [] /\ In (hd 0 f) [10; 32; 9; 35] /\ importmask (Some f) mask = 0).
Proof.
  unfold importmask. destruct f as [|c t] eqn:Ef; [contradiction|]. rewrite <- Ef. assert (Nf : f <> []) by (rewrite Ef; discriminate). destruct (fgets_prefix 80 f) as (r & E). set (b := fgets 80 f) in *.
  assert (Nb : hd 0 b = hd 0 f /\ b <> []) by (unfold b; rewrite Ef; cbn [fgets]; destruct (c =? 10); split; discriminate || reflexivity). clear c t Ef.
  destruct (starts b ALL) eqn:S.
  - intros _. left. split; [|reflexivity]. apply starts_ok in S. destruct S as (q & S). exists (q ++ r). rewrite E, S. reflexivity.
  - clearbody b. destruct (strto_inv b) as [(_ & L & _)|(a & rest & n & Es & Na & Nu & R & _ & V & _)].
    + rewrite L. cbn [Z.ltb Z.compare]. destruct b as [|x b]; [destruct Nb; contradiction|]. destruct Nb as [Nb _]. cbn [hd] in Nb. intros H. right. right. split; [exact Nf|]. rewrite <- Nb.
      destruct (Z.eqb_spec x 10) as [-> |]; [split; [cbn; tauto|reflexivity]|]. destruct (Z.eqb_spec x 32) as [-> |]; [split; [cbn; tauto|reflexivity]|]. destruct (Z.eqb_spec x 9) as [-> |]; [split; [cbn; tauto|reflexivity]|]. destruct (Z.eqb_spec x 35) as [-> |]; [split; [cbn; tauto|reflexivity]|]. cbn [orb] in H. contradiction.
    + destruct (strtoll b) as [v q]. cbn [fst snd] in R, V. subst q v. destruct (Z.ltb_spec (clip (-9223372036854775808) 9223372036854775807 n) 0) as [L|L]; [contradiction|]. intros H. right. left. exists a, (rest ++ r), n. split; [rewrite E, Es, <- app_assoc; reflexivity|]. split; [exact Nu|]. split; [unfold clip in L; lia|].
      destruct rest as [|x rest]; [reflexivity|]. destruct ((x =? 10) || (x =? 32) || (x =? 9) || (x =? 35)); [reflexivity|contradiction].
Qed.

(** Records. *)
Lemma print_ok b t : Z.of_nat (length b) <= 8191 -> print b t = firstn (Z.to_nat 8191) (b ++ text t).
Proof.
  intros L. unfold print, BUFFER_MAXIMUM. destruct t as [t|]; cbn [text].
  - rewrite firstn_app, (firstn_all2 (n := Z.to_nat 8191) b) by lia. destruct (Z.geb_spec (Z.of_nat (length t)) (8192 - Z.of_nat (length b))).
    + f_equal. f_equal. lia.
    + rewrite (firstn_all2 (n := (Z.to_nat 8191 - length b)%nat) t) by lia. reflexivity.
  - rewrite app_nil_r, firstn_all2 by lia. reflexivity.
Qed.
Lemma compose_text h m : print (print [] h) m = firstn (Z.to_nat 8191) (text h ++ text m).
Proof.
  rewrite (print_ok [] h) by (cbn; lia). cbn [app]. rewrite print_ok by (rewrite firstn_length; lia).
  destruct (Z.leb_spec (Z.of_nat (length (text h))) 8191) as [L|L].
  - rewrite (firstn_all2 (n := Z.to_nat 8191) (text h)) by lia. reflexivity.
  - rewrite !firstn_app, firstn_firstn, Nat.min_id. rewrite firstn_length. replace (Z.to_nat 8191 - Nat.min (Z.to_nat 8191) (length (text h)))%nat with 0%nat by lia. replace (Z.to_nat 8191 - length (text h))%nat with 0%nat by lia. reflexivity.
Qed.
Lemma removelast_firstn_8191 (t : list Z) : 8191 <= Z.of_nat (length t) -> removelast (firstn (Z.to_nat 8191) t) = firstn (Z.to_nat 8190) t.
Proof. intros L. replace (Z.to_nat 8191) with (S (Z.to_nat 8190)) by lia. apply removelast_firstn. lia. Qed.
Lemma compose_ok h m : text h ++ text m <> [] -> compose h m = Some (line (text h ++ text m)).
Proof.
  intros N. unfold compose. rewrite compose_text. set (t := text h ++ text m) in *. unfold line.
  assert (Lf : length (firstn (Z.to_nat 8191) t) = Nat.min (Z.to_nat 8191) (length t)) by apply firstn_length.
  destruct (firstn (Z.to_nat 8191) t) as [|x u] eqn:F; [destruct t; [contradiction|]; cbn [length] in Lf; lia|]. rewrite <- F in *. unfold BUFFER_MAXIMUM.
  destruct (Z.leb_spec (8192 - Z.of_nat (length (firstn (Z.to_nat 8191) t))) 1) as [L|L]; destruct (Z.leb_spec (Z.of_nat (length t)) 8190) as [K|K]; try lia.
  - rewrite removelast_firstn_8191 by lia. reflexivity.
  - rewrite firstn_all2 by lia. destruct (last t 0 =? 10); reflexivity.
Qed.
Lemma compose_none h m : compose h m = None <-> text h = [] /\ text m = [].
Proof.
  split.
  - intros H. destruct (text h ++ text m) eqn:E; [apply app_eq_nil; exact E|]. rewrite compose_ok in H by (rewrite E; discriminate). discriminate.
  - intros (H & M). unfold compose. rewrite compose_text, H, M. reflexivity.
Qed.
Lemma line_ok t : Z.of_nat (length (line t)) <= 8191 /\ last (line t) 0 = 10 /\ forall i, (i < length t)%nat -> Z.of_nat i < 8190 -> nth i (line t) 0 = nth i t 0.
Proof.
  unfold line. destruct (Z.leb_spec (Z.of_nat (length t)) 8190) as [L|L].
  - destruct (Z.eqb_spec (last t 0) 10) as [E|E].
    + split; [lia|]. split; [exact E|auto].
    + split; [rewrite app_length; cbn [length]; lia|]. split; [apply last_last|]. intros i H _. apply app_nth1. exact H.
  - split; [rewrite app_length, firstn_length; cbn [length]; lia|]. split; [apply last_last|]. intros i H K. rewrite app_nth1 by (rewrite firstn_length; lia). assert (K2 : (i < Z.to_nat 8190)%nat) by lia. clear K. revert i H K2. clear. generalize (Z.to_nat 8190) as n. intros n. revert t. induction n as [|n IH]; intros t i H K; [lia|]. destruct t as [|x t]; [destruct i; reflexivity|]. cbn [firstn]. destruct i as [|i]; [reflexivity|]. cbn [nth]. apply IH; [cbn [length] in H; lia|lia].
Qed.

(** Writing. *)
Lemma turn_ok rest rc errno : rc > 0 -> exists rest', turn rest rc errno = (rest', 0, true) /\ rest = wrote rest rc ++ rest' /\ (rest <> [] -> (length rest' < length rest)%nat).
Proof.
  intros H. unfold turn, wrote. destruct (Z.eqb_spec rc 0); [lia|]. destruct (Z.gtb_spec (u64 rc) (Z.of_nat (length rest))) as [G|G].
  - eexists. split; [reflexivity|]. rewrite skipn_all2 by lia. assert (rc > Z.of_nat (length rest)). { unfold u64 in G. pose proof (Z.mod_le rc 18446744073709551616 ltac:(lia) ltac:(lia)). lia. }
    rewrite firstn_all2 by lia. rewrite app_nil_r. split; [reflexivity|]. intros N. destruct rest; [contradiction|]. cbn [length]. lia.
  - destruct (Z.gtb_spec rc 0); [|lia]. eexists. split; [reflexivity|]. rewrite firstn_skipn. split; [reflexivity|]. intros N. rewrite skipn_length. destruct rest; [contradiction|]. cbn [length]. lia.
Qed.
Lemma wrote_none rest rc : rc <= 0 -> wrote rest rc = [].
Proof. intros H. unfold wrote. replace (Z.to_nat rc) with 0%nat by lia. reflexivity. Qed.
Lemma turn_negative rest rc errno : - 2 ^ 31 <= rc < 0 -> Z.of_nat (length rest) < 2 ^ 63 -> turn rest rc errno = ([], 0, true).
Proof.
  intros H L. unfold turn. destruct (Z.eqb_spec rc 0); [lia|]. assert (u64 rc = rc + 18446744073709551616) as -> by (unfold u64; rewrite <- (Z.mod_add rc 1) by lia; apply Z.mod_small; lia).
  destruct (Z.gtb_spec (rc + 18446744073709551616) (Z.of_nat (length rest))); [|lia]. rewrite skipn_all2 by lia. reflexivity.
Qed.
Lemma turn_any rest rc errno : exists rest' n go, turn rest rc errno = (rest', n, go) /\ (n = 0 \/ (n = 1 /\ go = false)) /\ exists mid, rest = wrote rest rc ++ mid ++ rest' /\ (mid = [] \/ rest' = []).
Proof.
  destruct (Z_gt_le_dec rc 0) as [P|P].
  - destruct (turn_ok rest rc errno P) as (r & E & S & _). exists r, 0, true. split; [exact E|]. split; [left; reflexivity|]. exists []. split; [exact S|auto].
  - rewrite wrote_none by exact P. cbn [app]. unfold turn. destruct (Z.eqb_spec rc 0); [exists rest, 1, false; split; [reflexivity|]; split; [auto|exists []; split; [reflexivity|auto]]|]. destruct (u64 rc >? _).
    + eexists _, 0, true. split; [reflexivity|]. split; [auto|]. rewrite skipn_all2 by lia. exists rest. rewrite app_nil_r. auto.
    + destruct (Z.gtb_spec rc 0); [lia|]. destruct (errno =? EINTR); [exists rest, 0, true|exists rest, 1, false]; (split; [reflexivity|]; split; [auto|exists []; split; [reflexivity|auto]]).
Qed.
Lemma loop_ok answers : forall rest, Forall (fun a => fst a > 0) answers -> (length rest <= length answers)%nat -> write_loop rest answers = Some (rest, 0).
Proof.
  induction answers as [|[rc e] answers IH]; intros rest F L; [destruct rest; [reflexivity|cbn [length] in L; lia]|]. destruct rest as [|x rest]; [reflexivity|]. cbn [write_loop].
  pose proof (Forall_inv F) as P. cbn [fst] in P. destruct (turn_ok (x :: rest) rc e P) as (rest' & -> & E & Lt). specialize (Lt ltac:(discriminate)). rewrite IH; [|exact (Forall_inv_tail F)|cbn [length] in *; lia]. cbn [bind]. rewrite <- E. reflexivity.
Qed.
(** In any case a prefix is written: after a failure there is nothing left or nothing else
    is done, but for an interruption, which leaves all. *)
Lemma loop_any answers : forall rest out n, write_loop rest answers = Some (out, n) -> is_prefix out rest /\ (n = 0 \/ n = 1).
Proof.
  induction answers as [|[rc e] answers IH]; intros rest out n H; [destruct rest; [injection H as <- <-; split; [exists []; reflexivity|auto]|discriminate H]|]. destruct rest as [|x rest]; [injection H as <- <-; split; [exists []; reflexivity|auto]|]. cbn [write_loop] in H.
  destruct (Z_gt_le_dec rc 0) as [P|P].
  - destruct (turn_ok (x :: rest) rc e P) as (rest' & T & E & _). rewrite T in H. destruct (write_loop rest' answers) as [[o k]|] eqn:W; [|discriminate H]. cbn [bind] in H. injection H as <- <-. destruct (IH _ _ _ W) as ((r & R) & K). split; [exists r; rewrite E at 1; rewrite R at 1; rewrite app_assoc; reflexivity|exact K].
  - rewrite wrote_none in H by exact P. cbn [app] in H. unfold turn in H. destruct (rc =? 0); [injection H as <- <-; split; [exists (x :: rest); reflexivity|auto]|]. destruct (u64 rc >? _).
    + rewrite skipn_all2 in H by lia. assert (write_loop [] answers = Some ([], 0)) as W by (destruct answers; reflexivity). rewrite W in H. cbn [bind] in H. injection H as <- <-. split; [exists (x :: rest); reflexivity|auto].
    + destruct (Z.gtb_spec rc 0); [lia|]. destruct (e =? EINTR); [|injection H as <- <-; split; [exists (x :: rest); reflexivity|auto]]. destruct (write_loop (x :: rest) answers) as [[o k]|] eqn:W; [|discriminate H]. cbn [bind] in H. injection H as <- <-. apply (IH _ _ _ W).
Qed.
