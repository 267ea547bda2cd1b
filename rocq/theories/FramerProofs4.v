From Coq Require Import ZArith List Bool Lia Arith.
From Verif Require Import CInt ChecksumModel ChecksumSpec ChecksumProofs FramerModel FramerSpec FramerProofs FramerProofs2 FramerProofs3.
Import ListNotations.
Local Open Scope Z_scope.

Lemma writer_total gen payload :
  (exists wire gen', writer gen payload = Some (wire, gen')) <-> Z.of_nat (length payload) <= 65535.
Proof.
  split.
  - intros (w & g & E). destruct (Z_le_gt_dec (Z.of_nat (length payload)) 65535) as [L|L]; [exact L|].
    rewrite writer_none in E by assumption. discriminate.
  - intros L. destruct (writer_some gen payload L) as (w & E). eauto.
Qed.

Lemma inside_prefix f w g : inside f w g -> forall n f',
  (n <= length w)%nat -> feed f (tokens (firstn n w)) = Some f' -> f' = f \/ live f'.
Proof.
  induction 1 as [|f c f1 w f2 M L I IH]; intros n f' N F.
  - rewrite firstn_nil in F. injection F as <-. auto.
  - destruct n; [injection F as <-; auto|]. cbn [firstn tokens map feed] in F. rewrite M in F.
    destruct (IH n f') as [-> | X]; auto. cbn in N. lia.
Qed.

Lemma live_neither f : live f -> iscomplete f = false /\ iserror f = false.
Proof.
  intros (esc & hp & k & B). pose proof (body_not_quiescent _ _ _ _ B) as N.
  unfold iscomplete, iserror. destruct (st f); cbn in N; tauto.
Qed.

Lemma complete_iff f : iscomplete f = true <-> st f = COMPLETE.
Proof. unfold iscomplete. destruct (st f); split; congruence. Qed.

Lemma incomplete_iff f : iscomplete f = false <-> st f <> COMPLETE.
Proof. unfold iscomplete. destruct (st f); split; congruence. Qed.

Lemma encodes_length w d : encodes w d -> (length d <= length w <= 2 * length d)%nat.
Proof. induction 1; cbn [length]; lia. Qed.

Lemma valid_frame_length wire payload seq : valid_frame wire payload seq ->
  (length payload + 11 <= length wire <= 2 * length payload + 17)%nat.
Proof.
  intros (V1 & V2 & V3 & w & -> & W). apply encodes_length in W.
  rewrite !app_length in *. rewrite header_length in W. rewrite trailer_length. cbn [length]. lia.
Qed.

Lemma wire_length gen payload wire gen' :
  octets payload -> writer gen payload = Some (wire, gen') ->
  (length payload + 11 <= length wire <= 2 * length payload + 17)%nat.
Proof. intros H E. eapply valid_frame_length, writer_valid; eassumption. Qed.

Lemma round_trip f gen payload wire gen' :
  reachable f -> st f = RESET ->
  octets payload -> Z.of_nat (length payload) <= size f ->
  writer gen payload = Some (wire, gen') ->
  (exists f', feed f (tokens wire) = Some f' /\
     iscomplete f' = true /\
     getlength f' = Z.of_nat (length payload) /\
     firstn (length payload) (buffer f') = payload /\
     sequence f' = gen' /\ previous f' = sequence f /\ total f' = Z.of_nat (length wire)) /\
  (forall n f', (n < length wire)%nat -> feed f (tokens (firstn n wire)) = Some f' ->
     iscomplete f' = false /\ iserror f' = false) /\
  gen' = (gen + 1) mod 65536.
Proof.
  intros Hr Hst Ho Hsz Hw. apply reachable_inv in Hr.
  destruct (writer_valid _ _ _ _ Ho Hw) as (V & G & Hl).
  destruct (frame_received f wire payload gen' (proj1 Hr) (proj2 (proj2 Hr)) (or_introl Hst) V Hsz)
    as (b & g & f' & Ew & Ins & M & S' & K & C & P1 & P2 & P3 & P4 & T1 & _ & _).
  split; [|split; [|exact G]].
  - exists f'. split.
    + rewrite Ew. unfold tokens. rewrite map_app. rewrite (inside_feed _ _ _ _ Ins). cbn [map feed]. rewrite M. reflexivity.
    + apply complete_iff in C as C'. split; [exact C'|]. split; [unfold getlength; rewrite C'; exact P2|].
      split; [exact P1|]. split; [exact P3|]. split; [exact P4|].
      rewrite T1 by congruence. apply Z.mod_small. pose proof (wire_length _ _ _ _ Ho Hw). lia.
  - intros n f1 N F. rewrite Ew, app_length in N. cbn in N.
    rewrite Ew, firstn_app in F. replace (n - length b)%nat with O in F by lia.
    cbn [firstn] in F. rewrite app_nil_r in F.
    destruct (inside_prefix _ _ _ Ins n f1 ltac:(lia) F) as [-> | L].
    + unfold iscomplete, iserror. rewrite Hst. auto.
    + apply live_neither. exact L.
Qed.

Lemma valid_frame_feed f wire payload seq :
  inv f -> st f = RESET -> valid_frame wire payload seq -> Z.of_nat (length payload) <= size f ->
  exists g f', feed f (tokens wire) = Some f' /\ machine g (Some 0x0a) = Some f' /\ st g <> COMPLETE /\ st f' = COMPLETE /\
    length_ f' = Z.of_nat (length payload) /\ size f' = size f /\
    firstn (length payload) (buffer f') = payload /\ sequence f' = seq.
Proof.
  intros Hr Hst V Hsz.
  destruct (frame_received f wire payload seq (proj1 Hr) (proj2 (proj2 Hr)) (or_introl Hst) V Hsz)
    as (b & g & f' & Ew & Ins & M & S' & K & C & P1 & P2 & P3 & P4 & T1 & _ & _).
  exists g, f'. split.
  - rewrite Ew. unfold tokens. rewrite map_app. rewrite (inside_feed _ _ _ _ Ins). cbn [map feed]. rewrite M. reflexivity.
  - split; [exact M|]. split.
    + assert (F : feed f (tokens (firstn (length b) b)) = Some g).
      { rewrite firstn_all. rewrite <- (app_nil_r (tokens b)). rewrite (inside_feed _ _ _ _ Ins). reflexivity. }
      destruct (inside_prefix _ _ _ Ins (length b) g ltac:(lia) F) as [-> | L]; [congruence|].
      apply incomplete_iff. apply live_neither. exact L.
    + split; [exact C|]. split; [exact P2|]. split; [apply K|]. auto.
Qed.

Lemma valid_frame_received f wire payload seq :
  reachable f -> st f = RESET -> valid_frame wire payload seq ->
  Z.of_nat (length payload) <= size f ->
  exists f', feed f (tokens wire) = Some f' /\ iscomplete f' = true /\
    getlength f' = Z.of_nat (length payload) /\
    firstn (length payload) (buffer f') = payload /\ sequence f' = seq.
Proof.
  intros Hr Hst V Hsz. apply reachable_inv in Hr.
  destruct (valid_frame_feed f wire payload seq Hr Hst V Hsz) as (g & f' & F & _ & _ & C & L & _ & B & Q).
  exists f'. split; [exact F|]. apply complete_iff in C. split; [exact C|].
  split; [unfold getlength; rewrite C; exact L|]. auto.
Qed.

Lemma store_st d x y : store d x = Some y -> st y = st x /\ sequence y = sequence x.
Proof.
  unfold store. destruct (limit x <=? 0); [discriminate|].
  destruct (here x); try discriminate; destruct (put _ _ _); intros X; try discriminate;
    injection X as <-; auto.
Qed.

Definition ended (f : framer) : Prop := st f = COMPLETE \/ st f = FINAL.

(** What a step can do to the state and the sequence number. *)
Lemma machine_ended f t f' : machine f t = Some f' ->
  (ended f -> ended f') /\ (ended f' \/ sequence f' = sequence f) /\
  (st f <> COMPLETE -> st f' = COMPLETE ->
    exists f0, act_terminate f0 = Some f').
Proof.
  unfold machine, ended. destruct t as [c|]; fs.
  2: { cbn. intros E. injection E as <-. fs. split; [auto|]. split; [auto|]. intros _ X. discriminate. }
  intros E.
  destruct (transition _ _ c _) as [[[s a] d] th] eqn:T.
  assert (X : (st f = COMPLETE \/ st f = FINAL -> (s = st f /\ a = CONSUME)) /\
    (s = COMPLETE -> st f <> COMPLETE -> a = TERMINATE) /\ (a = TERMINATE -> s = COMPLETE)).
  { revert T. unfold transition, on_reset, on_flag, on_field, on_escaped, on_kermit, on_newline.
    destruct (st f); repeat match goal with |- context[if ?b then _ else _] => destruct b end; intros T; injection T as <- <- _ _;
    (split; [intros [Y|Y]; try discriminate; auto|]); split; intros; try discriminate; try congruence; try contradiction. }
  destruct X as (X1 & X2 & X3).
  split; [|split].
  - intros Y. destruct (X1 Y) as [-> ->]. injection E as <-. exact Y.
  - destruct a; cbn [act] in E.
    9: { left. left. unfold act_terminate in E. specialize (X3 eq_refl). subst s.
      revert E. fs. destruct (_ <? _); [destruct (put _ _ _); [|discriminate]|]; intros E; injection E as <-; reflexivity. }
    all: right.
    all: try (injection E as <-; reflexivity); try (apply store_st in E; apply E).
    all: unfold act_length, act_sequence, act_fletcher, act_payload, act_kermit in E.
    all: destruct (store _ _) as [h|] eqn:Eh; [|discriminate]; apply store_st in Eh; destruct Eh as [_ Eh];
      revert Eh; fs; intros Eh; rewrite <- Eh.
    all: repeat match type of E with
        | context[if ?b then _ else _] => destruct b
        end; try discriminate; injection E as <-; reflexivity.
  - intros N C. 
    assert (A : a = TERMINATE).
    { destruct a; try reflexivity; exfalso; cbn [act] in E.
      all: try (injection E as <-; cbn in C; specialize (X2 C N); discriminate).
      all: try (apply store_st in E; destruct E as [E _]; rewrite E in C; cbn in C; specialize (X2 C N); discriminate).
      all: unfold act_length, act_sequence, act_fletcher, act_payload, act_kermit in E.
      all: destruct (store _ _) as [h|] eqn:Eh; [|discriminate]; apply store_st in Eh; destruct Eh as [Eh _];
        revert Eh; fs; intros Eh.
      all: repeat match type of E with
        | context[if ?b then _ else _] => destruct b
        end; try discriminate; injection E as <-; cbn in C; try discriminate; rewrite Eh in C; specialize (X2 C N); discriminate. }
    subst a. cbn [act] in E. eauto.
Qed.

Lemma nth_put l i x l' : put l i x = Some l' -> nth i l' 1 = x.
Proof.
  unfold put. destruct (Nat.ltb i (length l)) eqn:E; [|discriminate]. intros X. injection X as <-.
  apply Nat.ltb_lt in E. rewrite app_nth2; rewrite firstn_length_le by lia; [|lia].
  rewrite Nat.sub_diag. reflexivity.
Qed.

Lemma frame_terminated f wire payload seq f' :
  reachable f -> st f = RESET -> valid_frame wire payload seq ->
  Z.of_nat (length payload) < size f -> feed f (tokens wire) = Some f' ->
  nth (length payload) (buffer f') 1 = 0.
Proof.
  intros Hr Hst V Hsz F. apply reachable_inv in Hr.
  destruct (valid_frame_feed f wire payload seq Hr Hst V ltac:(lia)) as (g & f1 & F1 & M & N & C & L & Z & B & Q).
  rewrite F in F1. injection F1 as <-.
  destruct (machine_ended _ _ _ M) as (_ & _ & X). destruct (X N C) as (f0 & T).
  unfold act_terminate in T. destruct (length0 f0 <? size f0) eqn:D.
  - destruct (put _ _ _) eqn:P; [|discriminate]. injection T as <-. fsall. apply nth_put in P.
    rewrite L, Nat2Z.id in P. exact P.
  - injection T as <-. fsall. apply Z.ltb_ge in D. lia.
Qed.

Lemma writer_clean gen payload wire gen' :
  octets payload -> writer gen payload = Some (wire, gen') ->
  exists inner, wire = [0x7e] ++ inner ++ [0x0a] /\
    Forall (fun c => c <> 0x7e /\ c <> 0x0a /\ c <> 0x11 /\ c <> 0x13) inner /\ octets inner.
Proof.
  intros Ho E. destruct (writer_valid _ _ _ _ Ho E) as (V & _).
  pose proof (valid_frame_octets _ _ _ V) as O.
  destruct (valid_frame_clean _ _ _ V) as (mid & -> & H). exists mid. split; [reflexivity|]. split; [exact H|].
  apply Forall_app in O. destruct O as [_ O]. apply Forall_app in O. apply O.
Qed.

Lemma buffer_safety mem sz ops :
  0 <= sz <= Z.of_nat (length mem) -> Forall op_ok ops ->
  exists f, run (init mem sz) ops = Some f.
Proof.
  intros H Ho. destruct (run_inv ops (init mem sz) (init_inv mem sz H) Ho) as (f & E & _). eauto.
Qed.

Lemma run_app a : forall f b, run f (a ++ b) = match run f a with Some g => run g b | None => None end.
Proof.
  induction a as [|o a IH]; intros f b; [reflexivity|]. cbn [app run]. destruct (apply_op f o); auto.
Qed.

Lemma buffer_confined mem sz ops1 mem2 sz2 ops2 f :
  0 <= sz <= Z.of_nat (length mem) -> Forall op_ok ops1 ->
  0 <= sz2 <= Z.of_nat (length mem2) -> Forall op_ok ops2 ->
  (forall m n, ~ In (OSet m n) ops2) ->
  run (init mem sz) (ops1 ++ [OSet mem2 sz2] ++ ops2) = Some f ->
  length (buffer f) = length mem2 /\
  skipn (Z.to_nat sz2) (buffer f) = skipn (Z.to_nat sz2) mem2.
Proof.
  intros H H1 H2 H3 N E. rewrite run_app in E.
  destruct (run_inv ops1 (init mem sz) (init_inv mem sz H) H1) as (g & Eg & Hg). rewrite Eg in E.
  cbn [app run apply_op] in E.
  assert (K : keeps (set mem2 sz2 g) f).
  { eapply (run_keeps ops2); [apply set_inv; assumption|assumption| |exact E].
    apply Forall_forall. intros o Ho. destruct o; cbn; auto. eapply N; exact Ho. }
  destruct K as (_ & K2 & K3 & _). auto.
Qed.

Lemma reader_step_inv f t : inv f -> token_ok t -> exists f' r, reader_step f t = Some (f', r) /\ inv f'.
Proof.
  intros Hi Ht. destruct (step_inv f t Hi Ht) as (g & M & Hg & _). unfold reader_step. rewrite M.
  pose proof (reset_inv g Hg).
  destruct (st g); eauto. destruct (length_ g =? 0); eauto.
Qed.

Lemma reader_safe_inv ts : forall f, inv f -> Forall token_ok ts -> exists f' r rest, reader f ts = Some (f', r, rest).
Proof.
  induction ts as [|t ts IH]; intros f Hi Ht; [cbn; eauto|].
  apply Forall_cons_iff in Ht. destruct Ht as [H1 H2].
  destruct (reader_step_inv f t Hi H1) as (g & r & E & Hg). cbn [reader]. rewrite E.
  destruct (r =? 0); eauto.
Qed.

Lemma reader_safe f ts :
  reachable f -> Forall token_ok ts -> exists f' r rest, reader f ts = Some (f', r, rest).
Proof. intros R. apply reader_safe_inv, reachable_inv, R. Qed.

Lemma feed_ended ts : forall f f', feed f ts = Some f' -> ended f' \/ sequence f' = sequence f.
Proof.
  assert (S : forall ts f f', feed f ts = Some f' -> ended f -> ended f').
  { clear ts. intros ts. induction ts as [|t ts IH]; intros f f' F Hf; [injection F as <-; exact Hf|].
    cbn [feed] in F. destruct (machine f t) as [g|] eqn:M; [|discriminate].
    eapply IH; [exact F|]. eapply machine_ended; eassumption. }
  induction ts as [|t ts IH]; intros f f' F; [injection F as <-; auto|].
  cbn [feed] in F. destruct (machine f t) as [g|] eqn:M; [|discriminate].
  destruct (machine_ended _ _ _ M) as (_ & [X|X] & _).
  - left. eapply S; eassumption.
  - destruct (IH _ _ F) as [Y|Y]; [auto|right; congruence].
Qed.

Lemma acceptance_sound f ts f1 t f2 :
  reachable f -> st f = RESET -> Forall token_ok (ts ++ [t]) ->
  feed f ts = Some f1 -> iscomplete f1 = false ->
  machine f1 t = Some f2 -> iscomplete f2 = true ->
  exists noise wire payload seq,
    data_octets (ts ++ [t]) = noise ++ wire /\
    valid_frame wire payload seq /\
    Z.of_nat (length payload) <= size f2 /\
    firstn (length payload) (buffer f2) = payload /\
    getlength f2 = Z.of_nat (length payload) /\ sequence f2 = seq /\ previous f2 = sequence f.
Proof.
  intros Hr Hst Ht F N M C. apply reachable_inv in Hr.
  apply Forall_app in Ht. destruct Ht as [Hts Ht]. apply Forall_cons_iff in Ht. destruct Ht as [Ht _].
  pose proof C as C'. apply incomplete_iff in N. apply complete_iff in C.
  destruct (accepted_valid f ts f1 t f2 Hr Hst Hts Ht F N M C) as (pre & fr & E & V & L1 & L2 & P).
  destruct (feed_inv ts f Hr Hts) as (g & Eg & Hi1 & K1). rewrite F in Eg. injection Eg as <-.
  destruct (step_inv f1 t Hi1 Ht) as (g & Eg & Hi2 & K2). rewrite M in Eg. injection Eg as <-.
  assert (S : size f2 = size f) by (destruct K1, K2; congruence).
  assert (Q : sequence f1 = sequence f).
  { destruct (feed_ended _ _ _ F) as [[X|X]|X]; [contradiction| |exact X].
    exfalso. unfold machine in M. destruct t as [c|]; revert M; fs; rewrite ?X; cbn [transition act]; intros M;
      apply (f_equal (option_map st)) in M; cbn in M; rewrite C in M; discriminate M. }
  exists pre, fr, (firstn (Z.to_nat (length_ f2)) (buffer f2)), (sequence f2).
  split; [exact E|]. split; [exact V|]. split; [lia|].
  split; [rewrite firstn_length_le; [reflexivity|]|].
  { assert (length (firstn (Z.to_nat (length_ f2)) (buffer f2)) = Z.to_nat (length_ f2)) by lia.
    rewrite firstn_length in H. lia. }
  split; [unfold getlength; rewrite C'; exact L2|]. split; [reflexivity|congruence].
Qed.

Lemma encodes_fun w d : encodes w d -> forall d', encodes w d' -> d = d'.
Proof.
  induction 1; intros d' E; inversion E; subst; clear E; try reflexivity.
  - f_equal. auto.
  - exfalso. apply H. unfold reserved. auto.
  - exfalso. apply H3. unfold reserved. auto.
  - f_equal. auto.
Qed.

Lemma unique_decoding wire payload seq payload' seq' :
  valid_frame wire payload seq -> valid_frame wire payload' seq' ->
  payload = payload' /\ seq = seq'.
Proof.
  intros (V1 & V2 & V3 & w & E & W) (V1' & V2' & V3' & w' & E' & W').
  rewrite E in E'. apply app_inv_head in E'.
  rewrite !app_assoc in E'. apply app_inj_tail in E'. destruct E' as [E' _].
  assert (Ew : w = w').
  { assert (L : length w = length w').
    { apply (f_equal (@length Z)) in E'. rewrite !app_length, !trailer_length in E'. lia. }
    apply (f_equal (firstn (length w))) in E'. rewrite !firstn_app, L, Nat.sub_diag in E'.
    cbn [firstn] in E'. rewrite !app_nil_r in E'. rewrite <- L in E' at 1. rewrite !firstn_all in E'. exact E'. }
  subst w'. pose proof (encodes_fun _ _ W _ W') as H. apply header_inj in H. intuition congruence.
Qed.

Lemma resync f noise f1 wire payload seq rest :
  reachable f -> isterminal f = false -> octets noise ->
  reader f (tokens noise) = Some (f1, 0, []) -> iscomplete f1 = false ->
  escape_pending f1 = false ->
  valid_frame wire payload seq -> 0 < Z.of_nat (length payload) <= size f ->
  total f1 + Z.of_nat (length wire) < 9223372036854775808 ->
  exists f2, reader f1 (tokens wire ++ rest) = Some (f2, total f2, rest) /\ total f2 > 0 /\
    iscomplete f2 = true /\ getlength f2 = Z.of_nat (length payload) /\
    firstn (length payload) (buffer f2) = payload /\ sequence f2 = seq.
Proof.
  intros Hr Ht Ho E N He V Hs Hl. pose proof (nonterminal_armed f Hr Ht) as A.
  apply incomplete_iff in N. destruct (reader_armed noise f f1 0 [] A Ho E N) as [A1 S1].
  destruct (reader_frame f1 wire payload seq rest A1 He V ltac:(lia) Hl)
    as (f2 & R & T & _ & _ & _ & C & P & L & Q & _).
  exists f2. split; [exact R|]. split; [exact T|]. apply complete_iff in C. split; [exact C|].
  split; [unfold getlength; rewrite C; exact L|]. auto.
Qed.

Lemma resync_flag f noise f1 wire payload seq rest :
  reachable f -> isterminal f = false -> octets noise ->
  reader f (tokens noise) = Some (f1, 0, []) -> iscomplete f1 = false ->
  valid_frame wire payload seq -> 0 < Z.of_nat (length payload) <= size f ->
  total f1 + 1 + Z.of_nat (length wire) < 9223372036854775808 ->
  exists f2, reader f1 (tokens ([0x7e] ++ wire) ++ rest) = Some (f2, total f2, rest) /\ total f2 > 0 /\
    iscomplete f2 = true /\ getlength f2 = Z.of_nat (length payload) /\
    firstn (length payload) (buffer f2) = payload /\ sequence f2 = seq.
Proof.
  intros Hr Ht Ho E N V Hs Hl. pose proof (nonterminal_armed f Hr Ht) as A.
  apply incomplete_iff in N. destruct (reader_armed noise f f1 0 [] A Ho E N) as [A1 S1].
  destruct (reader_flag f1 (tokens wire ++ rest) A1) as (g & R & Ag & Eg & K & KR & T).
  assert (Hu : is_u64 (total f1)) by apply A1. unfold is_u64 in Hu.
  assert (Tg : total g + Z.of_nat (length wire) < 9223372036854775808).
  { destruct T as [-> | ->]; [lia|]. unfold u64. rewrite Z.mod_small; lia. }
  destruct K as (Ks & _).
  destruct (reader_frame g wire payload seq rest Ag Eg V ltac:(lia) Tg)
    as (f2 & R2 & T2 & _ & _ & _ & C & P & L & Q & _).
  exists f2. split; [etransitivity; [exact R|exact R2]|]. split; [exact T2|]. apply complete_iff in C. split; [exact C|].
  split; [unfold getlength; rewrite C; exact L|]. auto.
Qed.

Lemma reader_reset_total ts : forall f rest, inv f -> st f = RESET -> total f + Z.of_nat (length ts) < 9223372036854775808 ->
  octets ts -> Forall (fun c => c <> 0x7e) ts ->
  exists f', reader f (tokens ts ++ rest) = reader f' rest /\ inv f' /\ st f' = RESET /\
    keeps f f' /\ total f' <= total f + Z.of_nat (length ts).
Proof.
  induction ts as [|c ts IH]; intros f rest Hi R Hl Ho Hf.
  - exists f. cbn. split; [reflexivity|]. split; [assumption|]. split; [assumption|]. split; [apply keeps_refl|lia].
  - apply Forall_cons_iff in Ho. destruct Ho as [Hc Ho].
    apply Forall_cons_iff in Hf. destruct Hf as [Hc7 Hf].
    assert (M : machine f (Some c) = Some (set_throttle (flow c (throttle f)) (set_st RESET (set_total (u64 (total f + 1)) f)))).
    { unfold machine. fs. rewrite R. cbn. unfold on_reset. apply Z.eqb_neq in Hc7. unfold FLAG_T. rewrite Hc7. reflexivity. }
    set (g := set_throttle _ _) in M.
    assert (Rg : st g = RESET) by reflexivity.
    assert (Hig : inv g).
    { split; [exact (proj1 Hi)|]. split; [left; rewrite Rg; exact I|]. eapply machine_total; exact M. }
    assert (Tg : total g = total f + 1).
    { unfold g. fs. unfold u64. apply Z.mod_small. destruct Hi as (_ & _ & U). unfold is_u64 in U. cbn [length] in Hl. lia. }
    cbn [length] in Hl.
    destruct (IH g rest Hig Rg ltac:(lia) Ho Hf) as (f' & E & Hi' & R' & K' & T').
    exists f'. split.
    + cbn [tokens map app reader]. unfold reader_step. rewrite M, Rg. exact E.
    + split; [assumption|]. split; [assumption|]. split; [exact K'|]. cbn [length]. lia.
Qed.

Lemma resync_second f noise f1 wire1 payload1 seq1 wire2 payload2 seq2 rest :
  reachable f -> isterminal f = false -> octets noise ->
  reader f (tokens noise) = Some (f1, 0, []) -> iscomplete f1 = false ->
  valid_frame wire1 payload1 seq1 -> 0 < Z.of_nat (length payload1) <= size f ->
  valid_frame wire2 payload2 seq2 -> 0 < Z.of_nat (length payload2) <= size f ->
  total f1 + Z.of_nat (length wire1) < 9223372036854775808 ->
  (exists f2, reader f1 (tokens wire1 ++ tokens wire2 ++ rest) = Some (f2, total f2, tokens wire2 ++ rest) /\
    total f2 > 0 /\ iscomplete f2 = true /\ getlength f2 = Z.of_nat (length payload1) /\
    firstn (length payload1) (buffer f2) = payload1 /\ sequence f2 = seq1) \/
  (exists f2, reader f1 (tokens wire1 ++ tokens wire2 ++ rest) = Some (f2, total f2, rest) /\
    total f2 > 0 /\ iscomplete f2 = true /\ getlength f2 = Z.of_nat (length payload2) /\
    firstn (length payload2) (buffer f2) = payload2 /\ sequence f2 = seq2).
Proof.
  intros Hr Ht Ho E N V1 Hs1 V2 Hs2 Hl. destruct (escape_pending f1) eqn:He.
  - right. pose proof (nonterminal_armed f Hr Ht) as A.
    apply incomplete_iff in N. destruct (reader_armed noise f f1 0 [] A Ho E N) as [A1 S1].
    destruct (reader_escape_skip f1 wire1 payload1 seq1 (tokens wire2 ++ rest) A1 He V1)
      as (g & R & Ig & Rg & K & KR).
    assert (Ag : armed g) by (split; auto).
    assert (Eg : escape_pending g = false) by (unfold escape_pending; rewrite Rg; reflexivity).
    destruct K as (Ks & _).
    destruct (frame_received g wire2 payload2 seq2 (proj1 Ig) (proj2 (proj2 Ig)) (or_introl Rg) V2 ltac:(lia))
      as (b & h & f2 & Ew & Ins & M & S' & K2 & C & P1 & P2 & P3 & P4 & T1 & _).
    specialize (T1 ltac:(congruence)).
    pose proof (valid_frame_length _ _ _ V2) as L2. destruct V2 as (_ & V2 & _).
    rewrite Z.mod_small in T1 by lia.
    exists f2. split.
    + rewrite R, Ew. unfold tokens. rewrite map_app, <- app_assoc. rewrite (inside_reader _ _ _ _ Ins).
      cbn [map app reader]. unfold reader_step. rewrite M, C.
      replace (length_ f2 =? 0) with false by (symmetry; apply Z.eqb_neq; lia).
      replace (total f2 =? 0) with false by (symmetry; apply Z.eqb_neq; lia). reflexivity.
    + split; [lia|]. apply complete_iff in C. split; [exact C|].
      split; [unfold getlength; rewrite C; exact P2|]. auto.
  - left. eapply resync; eassumption.
Qed.

Lemma flow_control f ts f' :
  feed f ts = Some f' ->
  throttle f' = last_flow (throttle f) ts /\
  exists g, feed f (filter (fun t => negb (is_flow t)) ts) = Some g /\
    st f' = st g /\ iscomplete f' = iscomplete g /\ getlength f' = getlength g /\
    buffer f' = buffer g /\ sequence f' = sequence g /\ previous f' = previous g /\
    set_total 0 (set_throttle false f') = set_total 0 (set_throttle false g).
Proof.
  intros F. split; [apply feed_throttle; exact F|].
  destruct (feed_blind ts f f f' eq_refl F) as (g & Fg & B). exists g. split; [exact Fg|].
  assert (S : st f' = st g) by exact (f_equal st B).
  assert (L : length_ f' = length_ g) by exact (f_equal length_ B).
  split; [exact S|]. split; [unfold iscomplete; rewrite S; reflexivity|].
  split; [unfold getlength, iscomplete; rewrite S, L; reflexivity|].
  split; [exact (f_equal buffer B)|]. split; [exact (f_equal sequence B)|].
  split; [exact (f_equal previous B)|exact B].
Qed.

Lemma one_frame f wire payload seq :
  reachable f -> isterminal f = false -> escape_pending f = false -> total f < 4611686018427387904 ->
  valid_frame wire payload seq -> 0 < Z.of_nat (length payload) <= size f ->
  exists f', reader f (tokens wire) = Some (f', total f', []) /\ iscomplete f' = true /\
    firstn (length payload) (buffer f') = payload /\ sequence f' = seq /\ previous f' = sequence f.
Proof.
  intros Hr Ht He Hl V Hs. pose proof (nonterminal_armed f Hr Ht) as A.
  pose proof (valid_frame_length _ _ _ V) as L. assert (Z.of_nat (length payload) <= 65535) by apply V.
  destruct (reader_frame f wire payload seq [] A He V Hs ltac:(lia))
    as (f2 & R & T & _ & _ & _ & C & P & _ & Q & P4).
  rewrite app_nil_r in R. exists f2. apply complete_iff in C. auto.
Qed.

Lemma transmit_last lost : forall gen payload wires wire gen',
  Forall octets (lost ++ [payload]) ->
  transmit gen (lost ++ [payload]) = Some (wires ++ [wire], gen') ->
  valid_frame wire payload gen' /\ gen' = (gen + Z.of_nat (length lost) + 1) mod 65536.
Proof.
  induction lost as [|d lost IH]; intros gen payload wires wire gen' Ho E.
  - cbn [app transmit] in E. destruct (writer gen payload) as [[w g]|] eqn:W; [|discriminate].
    injection E as E <-. change [w] with ([] ++ [w]) in E. apply app_inj_tail in E. destruct E as [_ <-].
    apply Forall_cons_iff in Ho. destruct (writer_valid _ _ _ _ (proj1 Ho) W) as (V & -> & _).
    split; [exact V|]. f_equal. cbn. lia.
  - cbn [app transmit] in E. destruct (writer gen d) as [[w g]|] eqn:W; [|discriminate].
    destruct (transmit g (lost ++ [payload])) as [[ws g']|] eqn:T; [|discriminate].
    injection E as E <-. cbn [app] in Ho. apply Forall_cons_iff in Ho. destruct Ho as [Hd Ho].
    destruct (writer_valid _ _ _ _ Hd W) as (_ & G & _).
    destruct wires as [|w0 wires].
    + exfalso. injection E as _ E. subst ws. destruct lost; cbn in T.
      * destruct (writer g payload) as [[? ?]|]; discriminate.
      * destruct (writer g l) as [[? ?]|]; [|discriminate].
        destruct (transmit _ _) as [[? ?]|]; discriminate.
    + injection E as _ E. subst ws. destruct (IH g payload wires wire g' Ho T) as (V & ->).
      split; [exact V|]. subst g. cbn [length]. rewrite <- Z.add_assoc, Zplus_mod_idemp_l. f_equal. lia.
Qed.

Lemma missing f gen lost payload wires wire gen' :
  reachable f -> isterminal f = false -> escape_pending f = false -> total f < 4611686018427387904 ->
  Forall octets (lost ++ [payload]) -> 0 < Z.of_nat (length payload) <= size f ->
  is_u16 gen -> sequence f = gen -> Z.of_nat (length lost) < 65536 ->
  transmit gen (lost ++ [payload]) = Some (wires ++ [wire], gen') ->
  exists f', reader f (tokens wire) = Some (f', total f', []) /\ iscomplete f' = true /\
    firstn (length payload) (buffer f') = payload /\ sequence f' = gen' /\
    getmissing f' = Z.of_nat (length lost) /\
    getduplicated f' = (- Z.of_nat (length lost)) mod 65536.
Proof.
  intros Hr Ht He Hl Ho Hs Hg Hq Hk E.
  destruct (transmit_last lost gen payload wires wire gen' Ho E) as (V & G).
  destruct (one_frame f wire payload gen' Hr Ht He Hl V Hs) as (f' & R & C & P & Q & Pr).
  exists f'. split; [exact R|]. split; [exact C|]. split; [exact P|]. split; [exact Q|].
  unfold getmissing, getduplicated, u16. rewrite Q, Pr, Hq, G.
  set (k := Z.of_nat (length lost)) in *. split.
  - replace ((gen + k + 1) mod 65536 - 1 - gen) with ((gen + k + 1) mod 65536 - (1 + gen)) by lia.
    rewrite Zminus_mod_idemp_l. replace (gen + k + 1 - (1 + gen)) with k by lia.
    apply Z.mod_small. lia.
  - rewrite Zminus_mod_idemp_r. f_equal. lia.
Qed.

Lemma duplicated f wire payload seq k :
  reachable f -> isterminal f = false -> escape_pending f = false -> total f < 4611686018427387904 ->
  valid_frame wire payload seq -> 0 < Z.of_nat (length payload) <= size f ->
  1 <= k < 65536 -> sequence f = (seq + k - 1) mod 65536 ->
  exists f', reader f (tokens wire) = Some (f', total f', []) /\ iscomplete f' = true /\
    getduplicated f' = k /\ getmissing f' = (- k) mod 65536.
Proof.
  intros Hr Ht He Hl V Hs Hk Hq.
  destruct (one_frame f wire payload seq Hr Ht He Hl V Hs) as (f' & R & C & P & Q & Pr).
  exists f'. split; [exact R|]. split; [exact C|].
  unfold getmissing, getduplicated, u16. rewrite Q, Pr, Hq. split.
  - replace ((seq + k - 1) mod 65536 + 1 - seq) with ((seq + k - 1) mod 65536 - (seq - 1)) by lia.
    rewrite Zminus_mod_idemp_l. replace (seq + k - 1 - (seq - 1)) with k by lia. apply Z.mod_small. lia.
  - rewrite Zminus_mod_idemp_r. f_equal. lia.
Qed.

Lemma rollover f : is_u16 (sequence f) -> is_u16 (previous f) ->
  (didrollover f = true <-> sequence f = 0 /\ getmissing f = 0) /\
  (didfarend f = true <-> sequence f = 0 /\ getmissing f <> 0) /\
  (didnearend f = true <-> previous f = 65535 /\ getmissing f <> 0).
Proof.
  unfold is_u16, didrollover, didfarend, didnearend, getmissing, u16. intros H1 H2.
  rewrite !andb_true_iff, !negb_true_iff, !Z.eqb_eq, !Z.eqb_neq.
  assert (X : forall x, (x mod 65536 = 0 <-> exists q, x = q * 65536)).
  { intros x. split; [intros E; exists (x / 65536); pose proof (Z.div_mod x 65536); lia|].
    intros (q & ->). apply Z.mod_mul. lia. }
  rewrite X. split; [|split].
  - split; [intros [A B]; split; [lia|]; exists (-1); lia|]. intros (A & q & B). split; lia.
  - split; [intros [A B]; split; [lia|]; intros (q & C); lia|].
    intros (A & B). split; [|exact A]. intros C. apply B. exists (-1). lia.
  - split; [intros [A B]; split; [lia|]; intros (q & C); lia|].
    intros (A & B). split; [exact A|]. intros C. apply B. exists (-1). lia.
Qed.

Lemma resync_refuted : exists f noise f1 wire payload seq f2,
  reachable f /\ isterminal f = false /\ octets noise /\
  reader f (tokens noise) = Some (f1, 0, []) /\ iscomplete f1 = false /\
  valid_frame wire payload seq /\ 0 < Z.of_nat (length payload) <= size f /\
  reader f1 (tokens wire) = Some (f2, 0, []) /\ iscomplete f2 = false.
Proof.
  destruct (writer 65535 [1]) as [[wire g]|] eqn:W; [|vm_compute in W; discriminate].
  assert (O : octets [1]) by (repeat constructor; unfold is_u8; lia).
  destruct (writer_valid _ _ _ _ O W) as (V & _).
  exists (init [0; 0] 2), [0x7e; 0x7d]. do 2 eexists. exists [1], g. eexists.
  split; [exists [0; 0], 2, []; repeat split; cbn; try lia; constructor|].
  split; [reflexivity|]. split; [repeat constructor; unfold is_u8; lia|].
  split; [vm_compute; reflexivity|]. split; [reflexivity|]. split; [exact V|].
  split; [cbn; lia|]. vm_compute in W. injection W as <- <-.
  split; vm_compute; reflexivity.
Qed.
