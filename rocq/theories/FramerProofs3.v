From Coq Require Import ZArith List Bool Lia Arith.
From Verif Require Import CInt ChecksumModel ChecksumSpec ChecksumProofs FramerModel FramerSpec FramerProofs FramerProofs2.
Import ListNotations.
Local Open Scope Z_scope.

(** * The writer *)

Lemma special_reserved c : special c = true <-> reserved c.
Proof.
  unfold special, reserved, flow_octet, NEWLINE_T, FLAG_T, ESCAPE, XON, XOFF.
  rewrite !orb_true_iff, !Z.eqb_eq. tauto.
Qed.

Lemma emit1_encodes c : encodes (emit1 c) [c].
Proof.
  unfold emit1. destruct (special c) eqn:E.
  - apply special_reserved in E. 
    assert (R : c = Z.lxor (Z.lxor c 32) 32)
      by (rewrite Z.lxor_assoc, Z.lxor_nilpotent, Z.lxor_0_r; reflexivity).
    unfold ESCAPE, MASK. rewrite R at 2. apply encodes_escaped; [|constructor].
    destruct E as [-> | [-> | [-> | [-> | ->]]]]; vm_compute; intuition discriminate.
  - apply encodes_plain; [|constructor]. intros X. apply special_reserved in X. congruence.
Qed.

Lemma emit_encodes d : encodes (emit d) d.
Proof.
  induction d as [|c d IH]; cbn [emit]; [constructor|].
  change (c :: d) with ([c] ++ d). apply encodes_app; [apply emit1_encodes|exact IH].
Qed.

Lemma emit_app a b : emit (a ++ b) = emit a ++ emit b.
Proof. induction a as [|c a IH]; cbn [app emit]; [reflexivity|]. rewrite IH, app_assoc. reflexivity. Qed.

Lemma htons_big_endian x : is_u16 x -> htons x = big_endian x.
Proof.
  unfold is_u16, htons, big_endian, u8. intros H. rewrite Z.shiftr_div_pow2 by lia.
  change (2 ^ 8) with 256. f_equal. apply Z.mod_small.
  split; [apply Z.div_pos; lia | apply Z.div_lt_upper_bound; lia].
Qed.

Lemma writer_some gen data : Z.of_nat (length data) <= 65535 -> exists wire, writer gen data = Some (wire, u16 (gen + 1)).
Proof.
  intros H. unfold writer. replace (65535 <? _) with false by (symmetry; apply Z.ltb_ge; lia).
  destruct (crc2chars _) as [[k0 k1] k2]. eexists. reflexivity.
Qed.

Lemma writer_none gen data : Z.of_nat (length data) > 65535 -> writer gen data = None.
Proof.
  intros H. unfold writer. replace (65535 <? _) with true by (symmetry; apply Z.ltb_lt; lia). reflexivity.
Qed.

Lemma writer_valid gen data wire gen' :
  octets data -> writer gen data = Some (wire, gen') ->
  valid_frame wire data gen' /\ gen' = (gen + 1) mod 65536 /\ Z.of_nat (length data) <= 65535.
Proof.
  intros Ho E. unfold writer in E.
  destruct (65535 <? Z.of_nat (length data)) eqn:L; [discriminate|]. apply Z.ltb_ge in L.
  set (len := Z.of_nat (length data)) in *.
  assert (Hlen : is_u16 len) by (unfold is_u16; lia).
  assert (Hu : u16 len = len) by (unfold u16; apply Z.mod_small; unfold is_u16 in Hlen; lia).
  rewrite Hu in E. set (g := u16 (gen + 1)) in *.
  assert (Hg : is_u16 g) by (unfold g, is_u16, u16; apply Z.mod_pos_bound; lia).
  rewrite !htons_big_endian in E by assumption.
  assert (Ho1 : octets (big_endian len)) by (apply big_endian_octets; assumption).
  assert (Ho2 : octets (big_endian g)) by (apply big_endian_octets; assumption).
  rewrite <- fletcher_16_app in E by (try assumption; unfold is_u8; lia).
  rewrite fletcher_header in E; [|apply Forall_app; split; assumption|discriminate].
  cbn [fst snd] in E.
  assert (Ecrc : (if 0 <? len then kermit_16 data 0 else 0) = crc_string data 0).
  { destruct (0 <? len) eqn:P.
    - apply kermit_16_spec; [assumption|unfold is_u16; lia].
    - apply Z.ltb_ge in P. destruct data; [reflexivity|unfold len in P; cbn in P; lia]. }
  rewrite Ecrc in E.
  destruct (trailer_chars data Ho) as (k0 & k1 & k2 & Et & Ec & _). rewrite Ec in E.
  assert (Ed : (if 0 <? len then emit data else []) = emit data).
  { destruct (0 <? len) eqn:P; [reflexivity|].
    apply Z.ltb_ge in P. destruct data; [reflexivity|unfold len in P; cbn in P; lia]. }
  rewrite Ed in E. apply (f_equal (fun o => match o with Some x => x | None => ([], 0) end)) in E.
  apply pair_equal_spec in E. destruct E as [<- <-].
  split; [|split; [reflexivity|assumption]].
  split; [assumption|]. split; [assumption|]. split; [assumption|].
  exists (emit (header len g ++ data)). split; [|apply emit_encodes].
  unfold header. rewrite !emit_app, Et. rewrite <- !app_assoc. unfold FLAG_T, NEWLINE_T. reflexivity.
Qed.

(** * Transparency *)

Lemma encodes_clean w d : encodes w d ->
  Forall (fun c => c <> 0x7e /\ c <> 0x0a /\ c <> 0x11 /\ c <> 0x13) w.
Proof.
  induction 1; repeat constructor; try assumption; unfold reserved, flow_octet in *; try lia.
Qed.

Lemma valid_frame_clean wire payload seq : valid_frame wire payload seq ->
  exists mid, wire = [0x7e] ++ mid ++ [0x0a] /\
    Forall (fun c => c <> 0x7e /\ c <> 0x0a /\ c <> 0x11 /\ c <> 0x13) mid.
Proof.
  intros (V1 & V2 & V3 & w & -> & W). exists (w ++ trailer payload).
  split; [rewrite <- app_assoc; reflexivity|]. apply Forall_app. split; [eapply encodes_clean; exact W|].
  destruct (trailer_chars payload V1) as (k0 & k1 & k2 & -> & _ & N0 & N1 & N2).
  unfold reserved, flow_octet in *. repeat constructor; lia.
Qed.

(** * Flow control (C06) *)

Definition blind (f : framer) : framer := set_total 0 (set_throttle false f).

Lemma transition_throttle s lim c th :
  transition s lim c th = (fst (transition s lim c false), flow c th) /\
  fst (transition s lim c th) = fst (transition s lim c false).
Proof.
  assert (X : transition s lim c th = (fst (transition s lim c false), flow c th)).
  { unfold transition, on_reset, on_flag, on_field, on_escaped, on_kermit, on_newline, flow, XON, XOFF, NEWLINE_T, FLAG_T, ESCAPE.
    destruct (token_cases c) as [R|(Hr & E1 & E2 & E3 & E4 & E5)].
    - destruct R as [-> | [-> | [-> | [-> | ->]]]]; destruct s; reflexivity.
    - unfold NEWLINE_T, FLAG_T, ESCAPE, XON, XOFF in *. rewrite E1, E2, E3, E4, E5. cbn [orb].
      destruct s; try reflexivity; destruct (1 <? lim); try reflexivity;
      destruct (lim =? 3), (lim =? 2), (lim =? 1); reflexivity. }
  split; [exact X|]. rewrite X. reflexivity.
Qed.

Lemma store_blind d f : option_map blind (store d f) = option_map blind (store d (blind f)).
Proof.
  unfold store, blind. fs. destruct (limit f <=? 0); [reflexivity|].
  destruct (here f); try reflexivity; destruct (put _ _ _); reflexivity.
Qed.

Lemma store_blind_cases d f :
  (store d f = None /\ store d (blind f) = None) \/
  (exists g h, store d f = Some g /\ store d (blind f) = Some h /\ blind g = h).
Proof.
  unfold store, blind. fs. destruct (limit f <=? 0); [left; auto|].
  destruct (here f); try (left; auto; fail);
    destruct (put _ _ _); try (left; auto; fail); right; do 2 eexists; repeat split; reflexivity.
Qed.

Lemma act_blind a d f : option_map blind (act a d f) = option_map blind (act a d (blind f)).
Proof.
  destruct a; cbn [act]; try reflexivity; try (apply store_blind).
  all: unfold act_length, act_sequence, act_fletcher, act_payload, act_kermit, act_terminate.
  all: try (destruct (store_blind_cases d f) as [[-> ->]|(g & h & -> & -> & <-)]; [reflexivity|]; unfold blind; fs;
    repeat match goal with |- context[if ?b then _ else _] => destruct b end; reflexivity).
  unfold blind; fs. destruct (length0 f <? size f); [|reflexivity]. destruct (put _ _ _); reflexivity.
Qed.

Lemma machine_blind f t : option_map blind (machine f t) = option_map blind (machine (blind f) t).
Proof.
  destruct t as [c|].
  - unfold machine. fs.
    destruct (transition_throttle (st f) (limit f) c (throttle f)) as [-> _].
    unfold blind at 3 4. fs.
    destruct (transition_throttle (st f) (limit f) c (throttle (blind f))) as [E _].
    unfold blind in E |- *. fsall. rewrite E.
    destruct (fst (transition (st f) (limit f) c false)) as [[s a] d].
    etransitivity; [apply act_blind|]. symmetry. etransitivity; [apply act_blind|]. reflexivity.
  - reflexivity.
Qed.

Lemma machine_flow f c : flow_octet c ->
  machine f (Some c) = Some (set_throttle (c =? 0x13) (set_total (u64 (total f + 1)) f)).
Proof.
  intros H. unfold machine. fs.
  assert (T : transition (st f) (limit f) c (throttle f) = (st f, CONSUME, c, (c =? 0x13))).
  { destruct H as [-> | ->]; destruct (st f); reflexivity. }
  rewrite T. fs. reflexivity.
Qed.

Lemma machine_throttle f t f' : machine f t = Some f' ->
  throttle f' = match t with Some c => flow c (throttle f) | None => throttle f end.
Proof.
  assert (A : forall a d g g', act a d g = Some g' -> throttle g' = throttle g).
  { intros a d g g' E.
    assert (S : forall x y, store d x = Some y -> throttle y = throttle x).
    { unfold store. intros x y. destruct (limit x <=? 0); [discriminate|].
      destruct (here x); try discriminate; destruct (put _ _ _); intros X; try discriminate;
        injection X as <-; reflexivity. }
    destruct a; cbn [act] in E;
      unfold act_length, act_sequence, act_fletcher, act_payload, act_kermit, act_terminate in E;
      try (injection E as <-; reflexivity); try (apply S; exact E);
      try (destruct (store d g) as [h|] eqn:Eh; [|discriminate]; apply S in Eh; rewrite <- Eh);
      repeat match type of E with
        | context[if ?b then _ else _] => destruct b
        | context[match put ?x ?y ?z with _ => _ end] => destruct (put x y z)
        end; try discriminate; injection E as <-; reflexivity. }
  destruct t as [c|]; unfold machine; fs; intros E.
  - destruct (transition_throttle (st f) (limit f) c (throttle f)) as [T _]. rewrite T in E.
    destruct (fst _) as [[s a] d]. apply A in E. exact E.
  - cbn [transition] in E. injection E as <-. reflexivity.
Qed.

Lemma blind_blind f : blind (blind f) = blind f.
Proof. reflexivity. Qed.

Lemma machine_congr f g t f' : blind f = blind g -> machine f t = Some f' ->
  exists g', machine g t = Some g' /\ blind f' = blind g'.
Proof.
  intros E M. pose proof (machine_blind f t) as X. pose proof (machine_blind g t) as Y.
  rewrite M in X. rewrite E in X. rewrite <- Y in X. destruct (machine g t) as [g'|]; [|discriminate].
  exists g'. split; [reflexivity|]. cbn in X. congruence.
Qed.

Lemma feed_blind ts : forall f g f', blind f = blind g -> feed f ts = Some f' ->
  exists g', feed g (filter (fun t => negb (is_flow t)) ts) = Some g' /\ blind f' = blind g'.
Proof.
  induction ts as [|t r IH]; intros f g f' E F.
  - injection F as <-. exists g. auto.
  - cbn [feed] in F. destruct (machine f t) as [f1|] eqn:M; [|discriminate].
    cbn [filter]. destruct (is_flow t) eqn:T; cbn [negb].
    + destruct t as [c|]; [|discriminate]. cbn in T.
      assert (H : flow_octet c) by (apply orb_prop in T; rewrite !Z.eqb_eq in T; exact T).
      rewrite machine_flow in M by assumption. injection M as <-. eapply IH; [|exact F].
      rewrite <- E. reflexivity.
    + destruct (machine_congr f g t f1 E M) as (g1 & Mg & Eg). cbn [feed]. rewrite Mg.
      eapply IH; eassumption.
Qed.

Lemma feed_throttle ts : forall f f', feed f ts = Some f' -> throttle f' = last_flow (throttle f) ts.
Proof.
  induction ts as [|t r IH]; intros f f' F; [injection F as <-; reflexivity|].
  cbn [feed] in F. destruct (machine f t) as [f1|] eqn:M; [|discriminate].
  apply machine_throttle in M. rewrite (IH _ _ F), M. destruct t; reflexivity.
Qed.

(** * The reader (C05) *)

Definition armed (f : framer) : Prop := inv f /\ (st f = RESET \/ live f).

Lemma body_escape f esc hp k : body f esc hp k -> escape_pending f = esc.
Proof.
  intros H. unfold escape_pending.
  destruct H as [? ? ? ? E|? ? ? ? ? ? ? E|? ? ? ? ? ? ? ? ? ? E|? ? ? ? ? ? ? ? ? E|? ? ? ? ? ? ? ? ? E|? ? ? ? ? ? ? ? E];
    rewrite E; try (destruct esc; reflexivity); try reflexivity.
  destruct esc; [reflexivity|]. destruct hp; reflexivity.
Qed.

Lemma reader_step_armed f c : armed f -> is_u8 c ->
  exists f' r, reader_step f (Some c) = Some (f', r) /\ inv f' /\ size f' = size f /\
    ((r = 0 /\ armed f') \/ (st f' = COMPLETE /\ length_ f' <> 0 /\ r = total f')).
Proof.
  intros (Hi & Ha) Hc. destruct (step_inv f (Some c) Hi Hc) as (g & M & Hig & K).
  unfold reader_step. rewrite M.
  destruct K as (Ks & _).
  assert (Q : quiescent (st g) -> st g = COMPLETE \/ failed (st g) \/ st g = RESET).
  { intros Q. destruct Ha as [R|(esc & hp & k & B)].
    - destruct (step_quiescent f c) as (g' & M' & _ & _ & _ & D & _); [apply Hi|rewrite R; exact I|].
      rewrite M in M'. injection M' as <-. destruct D as [[D _]|(_ & _ & B & _)]; [right; right; congruence|].
      exfalso. eapply body_not_quiescent; eassumption.
    - destruct (step_body f esc hp k c) as (g' & M' & _ & _ & D); [apply Hi|assumption|assumption|].
      rewrite M in M'. injection M' as <-. destruct D as [[_ R]|(_ & _ & R)].
      + destruct R; try (exfalso; eapply body_not_quiescent; eassumption). auto.
      + destruct R. auto. }
  destruct Hig as (Sg & [Qg|Lg] & Tg).
  - specialize (Q Qg). unfold failed in Q.
    assert (AR : armed (reset g)) by (split; [apply reset_inv; split; auto|left; reflexivity]).
    destruct Q as [C|[[C|[C|[C|C]]]|C]]; rewrite C.
    + destruct (length_ g =? 0) eqn:L.
      * do 2 eexists. split; [reflexivity|]. split; [apply AR|]. auto.
      * do 2 eexists. split; [reflexivity|]. split; [split; auto|]. split; [exact Ks|].
        right. apply Z.eqb_neq in L. auto.
    + do 2 eexists. split; [reflexivity|]. split; [apply AR|]. auto.
    + do 2 eexists. split; [reflexivity|]. split; [apply AR|]. auto.
    + do 2 eexists. split; [reflexivity|]. split; [apply AR|]. auto.
    + do 2 eexists. split; [reflexivity|]. split; [apply AR|]. auto.
    + do 2 eexists. split; [reflexivity|].
      assert (inv g) by (split; auto). split; [assumption|]. split; [exact Ks|]. left. split; [reflexivity|].
      split; auto.
  - exists g, 0. pose proof (reader_step_live f (Some c) g M Lg) as X. unfold reader_step in X. rewrite M in X.
    split; [exact X|].
    assert (inv g) by (split; auto). split; [assumption|]. split; [exact Ks|]. left. split; [reflexivity|].
    split; auto.
Qed.

Lemma reader_complete_stable ts : forall f f' r rest,
  st f = COMPLETE -> length_ f <> 0 -> reader f (tokens ts) = Some (f', r, rest) -> st f' = COMPLETE.
Proof.
  induction ts as [|c ts IH]; intros f f' r rest C L E; [injection E as <- _ _; assumption|].
  cbn [tokens map reader] in E. unfold reader_step in E.
  assert (M : machine f (Some c) = Some (set_throttle (flow c (throttle f)) (set_st COMPLETE (set_total (u64 (total f + 1)) f)))).
  { unfold machine. fs. rewrite C. reflexivity. }
  rewrite M in E. fsall. apply Z.eqb_neq in L as L'. rewrite L' in E.
  destruct (u64 (total f + 1) =? 0).
  - eapply IH; [| |exact E]; fs; auto.
  - injection E as <- _ _. reflexivity.
Qed.

Lemma reader_armed ts : forall f f' r rest, armed f -> octets ts ->
  reader f (tokens ts) = Some (f', r, rest) -> st f' <> COMPLETE -> armed f' /\ size f' = size f.
Proof.
  induction ts as [|c ts IH]; intros f f' r rest A Ho E N; [injection E as <- _ _; auto|].
  apply Forall_cons_iff in Ho. destruct Ho as [Hc Ho].
  destruct (reader_step_armed f c A Hc) as (g & q & Eg & Hig & Ks & D).
  cbn [tokens map reader] in E. rewrite Eg in E. destruct D as [[-> Ag]|(C & L & ->)].
  - cbn [Z.eqb] in E. destruct (IH g f' r rest Ag Ho E N) as [X Y]. split; [exact X|congruence].
  - destruct (total g =? 0).
    + exfalso. apply N. eapply reader_complete_stable; eassumption.
    + injection E as <- _ _. contradiction.
Qed.

Lemma reader_frame f wire payload seq rest :
  armed f -> escape_pending f = false ->
  valid_frame wire payload seq -> 0 < Z.of_nat (length payload) <= size f ->
  total f + Z.of_nat (length wire) < 9223372036854775808 ->
  exists f', reader f (tokens wire ++ rest) = Some (f', total f', rest) /\ total f' > 0 /\
    (st f <> FLAG -> total f' = Z.of_nat (length wire)) /\
    inv f' /\ keeps f f' /\
    st f' = COMPLETE /\ firstn (length payload) (buffer f') = payload /\
    length_ f' = Z.of_nat (length payload) /\ sequence f' = seq /\ previous f' = sequence f.
Proof.
  intros (Hi & Ha) Hesc V Hsz Ht.
  assert (Hst : st f = RESET \/ exists hp k, body f false hp k).
  { destruct Ha as [R|(esc & hp & k & B)]; [auto|right].
    pose proof (body_escape _ _ _ _ B) as Be. assert (Et : esc = false) by congruence. clear Be. subst esc. eauto. }
  assert (Hu : is_u64 (total f)) by apply Hi. unfold is_u64 in Hu.
  destruct (frame_received f wire payload seq (proj1 Hi) Hu Hst V ltac:(lia))
    as (b & g & f' & Ew & Ins & M & S' & K & C & P1 & P2 & P3 & P4 & T1 & T2 & _).
  assert (Lw : 0 < Z.of_nat (length wire)) by (rewrite Ew, app_length; cbn [length]; lia).
  assert (TT : 0 < total f').
  { assert (D : {st f = FLAG} + {st f <> FLAG}) by (destruct (st f); auto; right; discriminate).
    destruct D as [F|F].
    - destruct (T2 F) as [-> | ->]; unfold u64; rewrite Z.mod_small; lia.
    - rewrite (T1 F). rewrite Z.mod_small; lia. }
  exists f'. split; [|split; [lia|]].
  - rewrite Ew. unfold tokens. rewrite map_app, <- app_assoc. rewrite (inside_reader _ _ _ _ Ins).
    cbn [map app reader]. unfold reader_step. rewrite M, C.
    replace (length_ f' =? 0) with false by (symmetry; apply Z.eqb_neq; lia).
    replace (total f' =? 0) with false by (symmetry; apply Z.eqb_neq; lia). reflexivity.
  - split; [intros F; rewrite (T1 F); apply Z.mod_small; lia|].
    split; [|auto 10]. split; [assumption|]. split; [left; rewrite C; exact I|].
    eapply machine_total; exact M.
Qed.

Lemma reader_reset_skip ts : forall f rest, inv f -> st f = RESET ->
  octets ts -> Forall (fun c => c <> 0x7e) ts ->
  exists f', reader f (tokens ts ++ rest) = reader f' rest /\ inv f' /\ st f' = RESET /\
    keeps f f' /\ keeps_received f f'.
Proof.
  induction ts as [|c ts IH]; intros f rest Hi R Ho Hf.
  - exists f. unfold keeps_received. auto 10 using keeps_refl.
  - apply Forall_cons_iff in Ho. destruct Ho as [Hc Ho].
    apply Forall_cons_iff in Hf. destruct Hf as [Hc7 Hf].
    destruct (step_quiescent f c (proj1 Hi)) as (g & M & Sg & K & KR & D & _); [rewrite R; exact I|].
    destruct D as [[D _]|(_ & X & _)]; [|contradiction].
    assert (Rg : st g = RESET) by congruence.
    assert (Hig : inv g).
    { split; [assumption|]. split; [left; rewrite Rg; exact I|]. eapply machine_total; exact M. }
    destruct (IH g rest Hig Rg Ho Hf) as (f' & E & Hi' & R' & K' & KR').
    exists f'. split.
    + cbn [tokens map app reader]. unfold reader_step. rewrite M, Rg. exact E.
    + split; [assumption|]. split; [assumption|]. split; [eapply keeps_trans; eassumption|].
      unfold keeps_received in *. intuition congruence.
Qed.

Lemma valid_frame_octets wire payload seq : valid_frame wire payload seq -> octets wire.
Proof.
  intros (V1 & V2 & V3 & w & -> & W).
  apply Forall_cons; [unfold is_u8; lia|]. apply Forall_app. split.
  - eapply encodes_octets; [exact W|]. apply Forall_app. split; [|assumption].
    apply header_octets; [unfold is_u16; lia|assumption].
  - destruct (trailer_chars payload V1) as (k0 & k1 & k2 & -> & Ec & _).
    assert (RR : is_u16 (crc_string payload 0)) by (apply crc_string_range; auto; unfold is_u16; lia).
    destruct (crc2chars_valid _ _ _ _ RR Ec) as (_ & _ & _ & Q0 & Q1 & Q2).
    repeat constructor; lia.
Qed.

(** With an escape pending the flag is taken for an abort, and the frame that
    follows is skipped. *)
Lemma reader_escape_skip f wire payload seq rest :
  armed f -> escape_pending f = true -> valid_frame wire payload seq ->
  exists f', reader f (tokens wire ++ rest) = reader f' rest /\ inv f' /\ st f' = RESET /\
    keeps f f' /\ keeps_received f f'.
Proof.
  intros (Hi & Ha) He V.
  pose proof (valid_frame_octets _ _ _ V) as Ho.
  destruct (valid_frame_clean _ _ _ V) as (mid & -> & Hm).
  assert (B : exists hp k, body f true hp k).
  { destruct Ha as [R|(esc & hp & k & B)]; [unfold escape_pending in He; rewrite R in He; discriminate|].
    pose proof (body_escape _ _ _ _ B) as Be. assert (Et : esc = true) by congruence. clear Be. subst esc. eauto. }
  destruct B as (hp & k & B).
  destruct (step_body f true hp k 0x7e (proj1 Hi) ltac:(unfold is_u8; lia) B) as (g & M & Sg & K & D).
  assert (A : st g = ABORT).
  { unfold machine in M. revert M. fs. unfold escape_pending in He.
    destruct (st f); try discriminate; cbn; intros M; injection M as <-; reflexivity. }
  destruct D as [[KR R]|(X & _)]; [|discriminate].
  assert (Hr : inv (reset g)).
  { apply reset_inv. split; [assumption|]. split; [left; rewrite A; exact I|]. eapply machine_total; exact M. }
  apply Forall_cons_iff in Ho. destruct Ho as [_ Ho].
  destruct (reader_reset_skip (mid ++ [0x0a]) (reset g) rest Hr eq_refl) as (f' & E & Hi' & R' & K' & KR').
  - exact Ho.
  - apply Forall_app. split; [|repeat constructor; lia].
    eapply Forall_impl; [|exact Hm]. cbn. tauto.
  - exists f'. split.
    + cbn [app tokens map reader]. unfold reader_step. rewrite M, A. exact E.
    + split; [assumption|]. split; [assumption|]. split; [eapply keeps_trans; [exact K|exact K']|].
      unfold keeps_received in *. fsall. intuition congruence.
Qed.

(** A flag before the frame absorbs a pending escape. *)
Lemma reader_flag f rest : armed f ->
  exists f', reader f (Some 0x7e :: rest) = reader f' rest /\ armed f' /\ escape_pending f' = false /\
   keeps f f' /\ keeps_received f f' /\ (total f' = 1 \/ total f' = u64 (total f + 1)).
Proof.
  intros (Hi & Ha). destruct (escape_pending f) eqn:He.
  - assert (B : exists hp k, body f true hp k).
    { destruct Ha as [R|(esc & hp & k & B)]; [unfold escape_pending in He; rewrite R in He; discriminate|].
      pose proof (body_escape _ _ _ _ B) as Be. assert (Et : esc = true) by congruence. clear Be. subst esc. eauto. }
    destruct B as (hp & k & B).
    destruct (step_body f true hp k 0x7e (proj1 Hi) ltac:(unfold is_u8; lia) B) as (g & M & Sg & K & D).
    assert (A : st g = ABORT /\ total g = u64 (total f + 1)).
    { unfold machine in M. revert M. fs. unfold escape_pending in He.
      destruct (st f); try discriminate; cbn; intros M; injection M as <-; split; reflexivity. }
    destruct A as [A At].
    destruct D as [[KR R]|(X & _)]; [|discriminate].
    assert (Hr : inv (reset g)).
    { apply reset_inv. split; [assumption|]. split; [left; rewrite A; exact I|]. eapply machine_total; exact M. }
    exists (reset g). split; [cbn [reader]; unfold reader_step; rewrite M, A; reflexivity|].
    split; [split; [exact Hr|left; reflexivity]|]. split; [reflexivity|]. split; [exact K|]. split; [exact KR|].
    right. exact At.
  - destruct (flag_step f (proj1 Hi)) as (g & M & Sg & K & KR & B & T & _).
    { destruct Ha as [R|(esc & hp & k & B)]; [auto|right].
      pose proof (body_escape _ _ _ _ B) as Be. assert (Et : esc = false) by congruence. clear Be. subst esc. eauto. }
    exists g. split.
    + cbn [reader]. rewrite (reader_step_live _ _ _ M (body_live _ _ _ _ B)). reflexivity.
    + assert (L : live g) by (eapply body_live; exact B).
      split; [split; [split; [assumption|split; [right; exact L|eapply machine_total; exact M]]|right; exact L]|].
      split; [eapply body_escape; exact B|]. split; [exact K|]. split; [exact KR|].
      destruct T as [T|[_ T]]; auto.
Qed.

(** * Reachable states *)

Lemma reachable_inv f : reachable f -> inv f.
Proof.
  intros (mem & sz & ops & H1 & H2 & E).
  destruct (run_inv ops (init mem sz) (init_inv mem sz H1) H2) as (g & Eg & Hg). congruence.
Qed.

Lemma nonterminal_armed f : reachable f -> isterminal f = false -> armed f.
Proof.
  intros R T. apply reachable_inv in R. split; [exact R|].
  destruct R as (_ & [Q|L] & _); [left|right; exact L].
  unfold isterminal in T. destruct (st f); try discriminate; try contradiction. reflexivity.
Qed.
