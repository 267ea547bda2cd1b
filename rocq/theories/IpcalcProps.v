(** The properties: addresses that are calculated. *)

From Coq Require Import ZArith List Bool Lia.
From Verif Require Import CUtil CInt NumberSpec DecModel DecProofs IpcalcModel IpcalcSpec IpcalcProofs.
Import ListNotations.
Local Open Scope Z_scope.

(** From an address alone, the mask of its class is printed. *)
Theorem C93_mask : forall aton s a, known aton s a -> s <> help -> ipcalc aton [s] = (dotted (natural a) ++ [10], 0).
Proof.
  intros aton s a (P & E) H. rewrite (ipcalc_run aton [s] [pack a]); [rewrite ntoa_dotted, natural_ok by exact P; reflexivity|discriminate|cbn; lia|congruence|]. cbn [parse]. rewrite E. reflexivity.
Qed.
Print Assumptions C93_mask.
(** From an address and a mask, the address with ones for all of the bits that the mask
    leaves to the hosts. *)
Theorem C93_broadcast : forall aton s1 s2 a m, known aton s1 a -> known aton s2 m ->
  exists r, merge m a ones r /\ ipcalc aton [s1; s2] = (dotted r ++ [10], 0).
Proof.
  intros aton s1 s2 a m (P1 & E1) (P2 & E2). exists (unpack (compute [pack a; pack m])). split.
  - pose proof (merge_bits (pack m) (pack a) 4294967295 _ (broadcast_bits (pack a) (pack m))) as M. rewrite !unpack_pack in M by assumption. exact M.
  - rewrite (ipcalc_run aton [s1; s2] [pack a; pack m]); [rewrite ntoa_dotted; reflexivity|discriminate|cbn; lia|discriminate|]. cbn [parse]. rewrite E1, E2. reflexivity.
Qed.
Print Assumptions C93_broadcast.
(** From an address, a mask and a host, the host in the network of the address. *)
Theorem C93_host : forall aton s1 s2 s3 a m h, known aton s1 a -> known aton s2 m -> known aton s3 h ->
  exists r, merge m a h r /\ ipcalc aton [s1; s2; s3] = (dotted r ++ [10], 0).
Proof.
  intros aton s1 s2 s3 a m h (P1 & E1) (P2 & E2) (P3 & E3). exists (unpack (compute [pack a; pack m; pack h])). split.
  - pose proof (merge_bits (pack m) (pack a) (pack h) _ (host_bits (pack a) (pack m) (pack h))) as M. rewrite !unpack_pack in M by assumption. exact M.
  - rewrite (ipcalc_run aton [s1; s2; s3] [pack a; pack m; pack h]); [rewrite ntoa_dotted; reflexivity|discriminate|cbn; lia|discriminate|]. cbn [parse]. rewrite E1, E2, E3. reflexivity.
Qed.
Print Assumptions C93_host.
(** There is one such address. *)
Theorem C93_one : forall m x y r r', merge m x y r -> merge m x y r' -> r = r'.
Proof.
  assert (G : forall m x y r r', merged m x y r -> merged m x y r' -> r = r').
  { intros m x y r r' (R & B) (R' & B'). apply Z.bits_inj'. intros i Hi. destruct (Z.ltb_spec i 8); [rewrite B, B' by lia; reflexivity|].
    rewrite <- (Z.mod_small r (2 ^ 8)), <- (Z.mod_small r' (2 ^ 8)) by (cbn; lia). rewrite !Z.mod_pow2_bits_high by lia. reflexivity. }
  intros m x y [r1 r2 r3 r4] [q1 q2 q3 q4] (A & B & C & D) (A' & B' & C' & D'). cbn [first second third fourth] in *. f_equal; eapply G; eassumption.
Qed.
Print Assumptions C93_one.
(** 192.168.1.222 with 255.255.255.0, and with 0.0.0.254. *)
Example C93_example :
  let aton := fun s => match s with [1] => Some 3724650688 | [2] => Some 16777215 | [3] => Some 4261412864 | _ => None end in
  known aton [1] (Address 192 168 1 222) /\ known aton [2] (Address 255 255 255 0) /\ known aton [3] (Address 0 0 0 254) /\
  ipcalc aton [[1]] = ([50; 53; 53; 46; 50; 53; 53; 46; 50; 53; 53; 46; 48; 10], 0) /\
  ipcalc aton [[1]; [2]] = ([49; 57; 50; 46; 49; 54; 56; 46; 49; 46; 50; 53; 53; 10], 0) /\
  ipcalc aton [[1]; [2]; [3]] = ([49; 57; 50; 46; 49; 54; 56; 46; 49; 46; 50; 53; 52; 10], 0) /\
  merge (Address 255 255 255 0) (Address 192 168 1 222) ones (Address 192 168 1 255).
Proof.
  cbv zeta. split; [split; [repeat split; cbn; lia|reflexivity]|]. split; [split; [repeat split; cbn; lia|reflexivity]|]. split; [split; [repeat split; cbn; lia|reflexivity]|].
  split; [reflexivity|]. split; [reflexivity|]. split; [reflexivity|]. unfold merge, merged. cbn [first second third fourth ones].
  assert (C : forall i, 0 <= i < 8 -> i = 0 \/ i = 1 \/ i = 2 \/ i = 3 \/ i = 4 \/ i = 5 \/ i = 6 \/ i = 7) by lia.
  repeat split; try lia; intros i Hi; apply C in Hi; decompose [or] Hi; subst i; reflexivity.
Qed.

(** Nothing is printed, and the exit status is one, if there are too few or too many
    arguments or if any is not an address. *)
Theorem C93_refused : forall aton args, args <> [help] -> (args = [] \/ (length args > 3)%nat \/ Exists (fun s => aton s = None) args) -> ipcalc aton args = ([], 1).
Proof.
  intros aton args H C. unfold ipcalc. assert (E : (match args with [a] => same a [45; 63] | _ => false end) = false).
  { destruct args as [|a [|b args]]; try reflexivity. destruct (same a [45; 63]) eqn:S; [apply same_spec in S; subst a; destruct H; reflexivity|reflexivity]. }
  rewrite E. destruct C as [-> |[C|C]]; [reflexivity| |].
  - destruct (Z.leb_spec (Z.of_nat (length args)) 3); [lia|]. rewrite andb_false_r. reflexivity.
  - assert (P : parse aton args = None). { clear -C. induction C as [a l N|a l _ IH]; cbn [parse]; [rewrite N; reflexivity|]. destruct (aton a); [cbn [bind]; rewrite IH|]; reflexivity. }
    rewrite P. destruct (negb _); reflexivity.
Qed.
Print Assumptions C93_refused.
Theorem C93_help : forall aton, ipcalc aton [help] = ([], 0).
Proof. reflexivity. Qed.
Print Assumptions C93_help.
Example C93_refused_example : ipcalc (fun _ => None) [[120]] = ([], 1) /\ ipcalc (fun _ => Some 0) [[1]; [2]; [3]; [4]] = ([], 1).
Proof. split; reflexivity. Qed.
