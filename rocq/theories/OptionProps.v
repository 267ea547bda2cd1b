(** Property C74. *)

From Coq Require Import ZArith List Bool Lia.
From Verif Require Import CInt CUtil NumberModel NumberSpec NumberProofs NumberProps OptionModel OptionSpec OptionProofs.
Import ListNotations.
Local Open Scope Z_scope.

(** A port is what the service of that name has, or else the number that is written,
    with or without a colon before it. *)
Theorem C74_service : forall services s high low, services (plain s) = Some (high, low) -> ipc_port services s = high * 256 + low.
Proof. intros services s high low E. unfold ipc_port. rewrite plain_eq, E. reflexivity. Qed.
Print Assumptions C74_service.
Theorem C74_number : forall services s n, services (plain s) = None -> numeral (plain s) n -> 0 <= n <= 65535 ->
  ipc_port services s = n.
Proof.
  intros services s n E N B. unfold ipc_port. rewrite plain_eq, E. pose proof (C60_unsigned (plain s) n [] N I) as U. rewrite app_nil_r in U. rewrite U.
  rewrite Z.abs_eq by lia. destruct (Z.ltb_spec n (2 ^ 64)) as [_|Q]; [|lia]. rewrite Z.mod_small by lia.
  destruct (Z.ltb_spec 65535 n); [lia|]. unfold u16. apply Z.mod_small. lia.
Qed.
Print Assumptions C74_number.

(** Anything else gives zero: a port that is not zero is that of a service, or its
    number is written, modulo 2^64. *)
Theorem C74_only : forall services s, ipc_port services s <> 0 ->
  (exists high low, services (plain s) = Some (high, low)) \/
  (exists n, numeral (plain s) n /\ Z.abs n < 2 ^ 64 /\ n mod 2 ^ 64 = ipc_port services s /\ ipc_port services s <= 65535).
Proof.
  intros services s H. unfold ipc_port in *. rewrite plain_eq in *. destruct (services (plain s)) as [[high low]|]; [left; eexists _, _; reflexivity|]. right.
  destruct (C60_only (plain s)) as [(_ & E)|(a & rest & n & E & _ & N & _ & R & _ & V)].
  { rewrite E in H |- *. destruct (plain s); [|congruence]. exfalso. apply H. reflexivity. }
  destruct (number_unsigned (plain s)) as [temp r]. cbn [fst snd] in R, V. subst r. destruct rest; [|congruence]. rewrite app_nil_r in E.
  destruct (Z.ltb_spec 65535 temp); [congruence|]. exists n. rewrite E. split; [exact N|].
  destruct (Z.ltb_spec (Z.abs n) (2 ^ 64)) as [Q|Q]; [|lia]. split; [exact Q|].
  assert (T : u16 temp = temp) by (unfold u16; apply Z.mod_small; pose proof (Z.mod_pos_bound n (2 ^ 64)); lia). rewrite T. split; [congruence|assumption].
Qed.
Print Assumptions C74_only.

(** So a huge negative number is taken for a port. *)
Theorem C74_negative_refuted : ipc_port (fun _ => None) (45 :: dec 18446744073709551615) = 1 /\
  numeral (45 :: dec 18446744073709551615) (- 18446744073709551615).
Proof.
  split; [reflexivity|]. apply (numeral_minus [] (dec 18446744073709551615) 18446744073709551615); [constructor|]. apply dec_body. lia.
Qed.
Print Assumptions C74_negative_refuted.

(** A port that is written into a buffer of six octets or more is read again; nothing
    else in memory is changed. *)
Theorem C74_roundtrip : forall services port buffer length, 0 <= port <= 65535 -> 6 <= length <= Z.of_nat (List.length buffer) ->
  exists b, port2string port buffer length = Some b /\ List.length b = List.length buffer /\
    skipn (Z.to_nat length) b = skipn (Z.to_nat length) buffer /\
    text b = dec port /\ (services (text b) = None -> ipc_port services (text b) = port /\ ipc_port services (58 :: text b) = port).
Proof.
  intros services port buffer length HP HL. unfold port2string. destruct (Z.ltb_spec 0 length); [|lia].
  destruct buffer as [|b0 buffer]; [cbn in HL; lia|]. cbn [set_at bind]. pose proof (utoa_five port HP) as U5.
  set (u := utoa 10 port []) in *. unfold snprintf. cbn [List.length] in *.
  destruct (Z.ltb_spec (Z.of_nat (S (List.length buffer))) length); [lia|]. destruct (Z.eqb_spec length 0); [lia|]. cbn [bind].
  rewrite (firstn_all2 u) by lia. set (w := u ++ [0]). assert (LW : List.length w = S (List.length u)) by (unfold w; rewrite app_length; cbn; lia).
  set (b1 := w ++ skipn (List.length w) (0 :: buffer)).
  assert (L1 : List.length b1 = S (List.length buffer)) by (unfold b1; rewrite app_length, skipn_length; cbn [List.length]; lia).
  destruct (set_at_some (Z.to_nat (length - 1)) 0 b1 ltac:(lia)) as (b & E & LB & Hn & Ho & F). rewrite E. exists b. split; [reflexivity|]. split; [lia|].
  assert (EB : b = firstn (Z.to_nat (length - 1)) b1 ++ 0 :: skipn (Z.to_nat length) (0 :: buffer)).
  { apply nth_ext with (d := 0) (d' := 0).
    - rewrite app_length, firstn_length. cbn [List.length]. rewrite skipn_length. cbn [List.length]. lia.
    - intros k K. destruct (Nat.lt_trichotomy k (Z.to_nat (length - 1))) as [C|[C|C]].
      + rewrite app_nth1 by (rewrite firstn_length; lia). rewrite <- F. rewrite <- (firstn_skipn (Z.to_nat (length - 1)) b) at 1. rewrite app_nth1 by (rewrite firstn_length; lia). reflexivity.
      + subst k. rewrite Hn. rewrite app_nth2 by (rewrite firstn_length; lia). rewrite firstn_length, Nat.min_l by lia. rewrite Nat.sub_diag. reflexivity.
      + rewrite Ho by lia. rewrite app_nth2 by (rewrite firstn_length; lia). rewrite firstn_length, Nat.min_l by lia.
        replace (k - Z.to_nat (length - 1))%nat with (S (k - Z.to_nat length)) by lia. cbn [nth]. unfold b1.
        rewrite app_nth2 by lia. rewrite <- (firstn_skipn (List.length w) (0 :: buffer)) at 2.
        assert (N : forall (l : list Z) i j, nth j (skipn i l) 0 = nth (i + j) l 0).
        { clear. induction l as [|x l IH]; intros [|i] j; [reflexivity|destruct j; reflexivity|reflexivity|]. cbn [skipn plus nth]. apply IH. }
        rewrite firstn_skipn, !N. f_equal. lia. }
  assert (SB : skipn (Z.to_nat length) b = skipn (Z.to_nat length) (0 :: buffer)).
  { rewrite EB, skipn_app, firstn_length, Nat.min_l by lia. rewrite (skipn_all2 (n := Z.to_nat length)) by (rewrite firstn_length; lia).
    replace (Z.to_nat length - Z.to_nat (length - 1))%nat with 1%nat by lia. reflexivity. }
  assert (TB : text b = u).
  { assert (X : exists rest, b = u ++ 0 :: rest).
    { rewrite EB. unfold b1, w. rewrite <- app_assoc. cbn [app].
      destruct (Nat.eq_dec (List.length u) (Z.to_nat (length - 1))) as [Q|Q].
      - rewrite firstn_app, Q, Nat.sub_diag, (firstn_all2 u) by lia. cbn [firstn app]. rewrite app_nil_r. eexists. reflexivity.
      - rewrite firstn_app, (firstn_all2 u) by lia. destruct (Z.to_nat (length - 1) - List.length u)%nat eqn:G; [lia|]. cbn [firstn]. rewrite <- app_assoc. cbn [app]. eexists. reflexivity. }
    destruct X as (rest & ->). apply utoa_text; [lia|intros []]. }
  split.
  { rewrite SB. destruct (Z.to_nat length) eqn:G; [lia|]. reflexivity. }
  assert (D : u = dec port) by (apply utoa_dec, HP). rewrite TB. split; [exact D|]. rewrite D. intros S.
  pose proof (numeral_plain [] (dec port) port (Forall_nil _) (dec_body port ltac:(lia)) : numeral (dec port) port) as NU.
  assert (P : plain (dec port) = dec port).
  { rewrite <- D, <- TB. clear -EB TB HP U5 D. unfold plain. rewrite TB. unfold u in *. destruct (utoa 10 port []) as [|c t] eqn:G; [reflexivity|].
    destruct (Z.eq_dec c 58) as [->|NC]; [|rewrite <- plain_eq || idtac].
    - exfalso. assert (Q : forall f n tail, (forall c, In c tail -> c < 58) -> forall c, In c (utoa f n tail) -> c < 58).
      { induction f as [|f IH]; intros n tail T c I; cbn [utoa] in I; [exact (T c I)|].
        assert (T' : forall c, In c ((48 + n mod 10) :: tail) -> c < 58) by (intros c' [<-|J]; [pose proof (Z.mod_pos_bound n 10 ltac:(lia)); lia|exact (T c' J)]).
        destruct (n / 10 =? 0); [exact (T' c I)|exact (IH _ _ T' c I)]. }
      pose proof (Q 10%nat port [] ltac:(intros ? []) 58) as R. rewrite G in R. specialize (R (or_introl eq_refl)). lia.
    - pose proof (plain_eq (c :: t)) as PE. unfold plain in PE. rewrite <- PE. destruct (Z.eqb_spec c 58); [contradiction|reflexivity]. }
  split.
  - apply C74_number; [rewrite P; exact S|rewrite P; exact NU|exact HP].
  - apply C74_number; [exact S|exact NU|exact HP].
Qed.
Print Assumptions C74_roundtrip.

(** A shorter buffer makes another port of it. *)
Theorem C74_truncated_refuted : exists b, port2string 65535 [9; 9; 9; 9] 4 = Some b /\ ipc_port (fun _ => None) (text b) = 655.
Proof. eexists. split; reflexivity. Qed.
Print Assumptions C74_truncated_refuted.

(** Lingering: off for zero; else on, for the ticks rounded up to seconds, or as long
    as can be. *)
Theorem C74_linger : forall ok fd ticks, 0 <= ticks < 2 ^ 64 ->
  exists onoff seconds, set_linger ok fd ticks = ((if (ok : bool) then fd else -10), [Linger fd onoff seconds]) /\
    (onoff = 0 <-> ticks = 0) /\ lingers ticks seconds.
Proof.
  intros ok fd ticks H. unfold set_linger, lingers, TICKS_MAX, FREQUENCY, INT_MAX. destruct (Z.eqb_spec ticks 0) as [->|N].
  { eexists _, _. split; [reflexivity|]. split; [split; reflexivity|]. lia. }
  destruct (Z.leb_spec ticks (18446744073709551615 - 1000000000)) as [L|L].
  - unfold u64. rewrite (Z.mod_small (ticks + 1000000000)) by lia. rewrite (Z.mod_small (ticks + 1000000000 - 1)) by lia.
    set (t := (ticks + 1000000000 - 1) / 1000000000). pose proof (Z.div_mod (ticks + 1000000000 - 1) 1000000000 ltac:(lia)) as D. fold t in D.
    pose proof (Z.mod_pos_bound (ticks + 1000000000 - 1) 1000000000 ltac:(lia)) as M.
    destruct (Z.leb_spec t 2147483647) as [Q|Q].
    + assert (E : s32 t = t) by (unfold s32; rewrite Z.mod_small by lia; lia). rewrite E.
      eexists _, _. split; [reflexivity|]. split; [split; [discriminate|lia]|]. split; [lia|]. left. lia.
    + eexists _, _. split; [reflexivity|]. split; [split; [discriminate|lia]|]. split; [lia|]. right. lia.
  - eexists _, _. split; [reflexivity|]. split; [split; [discriminate|lia]|]. split; [lia|]. right. lia.
Qed.
Print Assumptions C74_linger.

(** Buffer sizes: negative for none; otherwise what is asked for, or as much as can be. *)
Theorem C74_sizes : forall ok eperm fd size, - 2 ^ 63 <= size < 2 ^ 63 ->
  let failed := if (eperm : bool) then -8 else -9 in
  set_send ok eperm fd size = (if size <? 0 then (fd, []) else (if (ok : bool) then fd else failed, [Setsockopt fd 1 7 (Z.min size (2 ^ 31 - 1))])) /\
  set_receive ok eperm fd size = (if size <? 0 then (fd, []) else (if ok then fd else failed, [Setsockopt fd 1 8 (Z.min size (2 ^ 31 - 1))])).
Proof.
  intros ok eperm fd size H. cbn zeta. unfold set_send, set_receive, set_socket, SOL_SOCKET, SO_SNDBUF, SO_RCVBUF, INT_MAX.
  destruct (Z.ltb_spec size 0); [split; reflexivity|]. destruct (Z.ltb_spec 2147483647 size).
  - rewrite Z.min_r by lia. split; reflexivity.
  - rewrite Z.min_l by lia. assert (E : s32 size = size) by (unfold s32; rewrite Z.mod_small by lia; lia). rewrite E. split; reflexivity.
Qed.
Print Assumptions C74_sizes.

(** Switches: any value but zero is on, and both kinds of failure are told. *)
Theorem C74_switches : forall ok eperm fd enable, exists value,
  let result := if (ok : bool) then fd else if (eperm : bool) then -8 else -9 in
  set_reuseaddress ok eperm fd enable = (result, [Setsockopt fd 1 2 value]) /\
  set_keepalive ok eperm fd enable = (result, [Setsockopt fd 1 9 value]) /\
  (enable = 0 -> value = 0) /\ (enable <> 0 -> value = 1).
Proof.
  intros ok eperm fd enable. exists (if enable =? 0 then 0 else 1). split; [reflexivity|]. split; [reflexivity|].
  destruct (Z.eqb_spec enable 0); split; congruence.
Qed.
Print Assumptions C74_switches.

(** Nonblocking: just that flag is changed, and to what is asked for. *)
Theorem C74_status : forall flags ok fd enable, flags <> -1 ->
  exists f, set_nonblocking flags ok fd enable = ((if (ok : bool) then fd else -7), [Getfl fd; Setfl fd f]) /\
    Z.testbit f 11 = negb (enable =? 0) /\ (forall i, 0 <= i -> i <> 11 -> Z.testbit f i = Z.testbit flags i).
Proof.
  intros flags ok fd enable N. unfold set_nonblocking, set_status, O_NONBLOCK. destruct (Z.eqb_spec flags (-1)); [contradiction|].
  eexists. split; [reflexivity|]. change 2048 with (2 ^ 11). destruct (enable =? 0); cbn [negb].
  - split; [rewrite Z.land_spec, Z.lnot_spec, Z.pow2_bits_true by lia; apply andb_false_r|]. intros i B K.
    rewrite Z.land_spec, Z.lnot_spec, Z.pow2_bits_false by lia. apply andb_true_r.
  - split; [rewrite Z.lor_spec, Z.pow2_bits_true by lia; apply orb_true_r|]. intros i B K.
    rewrite Z.lor_spec, Z.pow2_bits_false by lia. apply orb_false_r.
Qed.
Print Assumptions C74_status.

(** A case in which the hypotheses hold. *)
Example C74_example :
  let services := fun s => if list_eq_dec Z.eq_dec s [104; 116; 116; 112] then Some (0, 80) else None in
  ipc_port services [58; 104; 116; 116; 112] = 80 /\ ipc_port services [58; 56; 48; 56; 48] = 8080 /\
  ipc_port services [56; 48; 120] = 0 /\ ipc_port services [54; 53; 53; 51; 54] = 0 /\
  port2string 8080 [9; 9; 9; 9; 9; 9; 9; 9] 7 = Some [56; 48; 56; 48; 0; 9; 0; 9] /\
  set_linger true 3 1500000000 = (3, [Linger 3 1 2]) /\ set_linger true 3 (2 ^ 64 - 1) = (3, [Linger 3 1 2147483647]).
Proof. repeat split. Qed.
Print Assumptions C74_example.
