From Coq Require Import ZArith List Bool Lia Arith.
From Verif Require Import CInt ChecksumModel ChecksumSpec ChecksumProofs FramerModel FramerSpec
  FramerProofs FramerProofs2 FramerProofs3 FramerProofs4 FramerendSpec.
Import ListNotations.
Local Open Scope Z_scope.

Lemma undisturbed_trans f g h : undisturbed f g -> undisturbed g h -> undisturbed f h.
Proof. unfold undisturbed. intuition congruence. Qed.

Lemma u64_le t n : 0 <= t -> 0 <= n -> u64 (t + n) <= t + n.
Proof. intros. unfold u64. apply Z.mod_le; lia. Qed.
Lemma u64_ge t : 0 <= u64 t.
Proof. unfold u64. apply Z.mod_pos_bound. lia. Qed.

(** * The abort *)

Lemma machine_consume f c s th :
  transition (st f) (limit f) c (throttle f) = (s, CONSUME, c, th) ->
  machine f (Some c) = Some (set_throttle th (set_st s (set_total (u64 (total f + 1)) f))).
Proof. intros E. rewrite (machine_some _ _ _ _ _ _ E). reflexivity. Qed.

Lemma reader_next f t f' rest : reader_step f t = Some (f', 0) -> reader f (t :: rest) = reader f' rest.
Proof. intros E. cbn [reader]. rewrite E. reflexivity. Qed.
Lemma tokens_abort rest : tokens abort ++ rest = Some 0x7d :: Some 0x7e :: rest.
Proof. reflexivity. Qed.

Lemma reader_step_consume f c s th :
  transition (st f) (limit f) c (throttle f) = (s, CONSUME, c, th) ->
  let g := set_throttle th (set_st s (set_total (u64 (total f + 1)) f)) in
  (match s with COMPLETE | FINAL => False | _ => True end) ->
  reader_step f (Some c) = Some (match s with ABORT | FAILED | OVERFLOW | INVALID => reset g | _ => g end, 0).
Proof.
  intros E g Hs. unfold reader_step. rewrite (machine_consume _ _ _ _ E). fold g.
  change (st g) with s. destruct s; try contradiction; reflexivity.
Qed.

Lemma armed_flag g th t : shape g -> armed (act_reset (set_throttle th (set_st FLAG (set_total t g)))).
Proof.
  intros Sg. destruct (act_reset_ok g th t Sg) as (S1 & _ & _ & B & T & _).
  assert (L : live (act_reset (set_throttle th (set_st FLAG (set_total t g))))) by (eapply body_live; exact B).
  split; [split; [exact S1|split; [right; exact L|rewrite T; unfold is_u64; lia]]|right; exact L].
Qed.

Lemma armed_reset g : shape g -> is_u64 (total g) -> armed (reset g).
Proof. intros Sg U. split; [split; [exact Sg|split; [left; exact I|exact U]]|left; reflexivity]. Qed.

(** A flag when the receiver waits for one. *)
Lemma reader_reset_flag f : shape f -> st f = RESET ->
  exists f', (forall rest, reader f (Some 0x7e :: rest) = reader f' rest) /\ armed f' /\ escape_pending f' = false /\
    isterminal f' = false /\ undisturbed f f' /\ throttle f' = throttle f /\ total f' = 1.
Proof.
  intros Hs R.
  assert (T : transition (st f) (limit f) 0x7e (throttle f) = (FLAG, A_RESET, 0x7e, throttle f)) by (rewrite R; reflexivity).
  pose proof (machine_some _ _ _ _ _ _ T) as M. cbn [act] in M.
  assert (A : armed (act_reset (set_throttle (throttle f) (set_st FLAG (set_total (u64 (total f + 1)) f))))) by (apply armed_flag; exact Hs).
  assert (P : exists f', machine f (Some 0x7e) = Some f' /\ st f' = FLAG /\ armed f' /\ undisturbed f f' /\ throttle f' = throttle f /\ total f' = 1).
  { eexists. split; [exact M|]. split; [reflexivity|]. split; [exact A|]. unfold undisturbed, act_reset. fs. tauto. }
  destruct P as (f' & M' & S' & P). exists f'.
  assert (R1 : reader_step f (Some 0x7e) = Some (f', 0)) by (unfold reader_step; rewrite M', S'; reflexivity).
  split; [intros rest; cbn [reader]; rewrite R1; reflexivity|].
  split; [apply P|]. split; [unfold escape_pending; rewrite S'; reflexivity|]. split; [unfold isterminal; rewrite S'; reflexivity|]. apply P.
Qed.

Lemma abort_reader f : inv f -> isterminal f = false ->
  exists f', (forall rest, reader f (tokens abort ++ rest) = reader f' rest) /\ armed f' /\
    escape_pending f' = false /\ isterminal f' = false /\ undisturbed f f' /\ throttle f' = throttle f /\ total f' <= total f + 2.
Proof.
  intros Hi Ht. assert (Hs : shape f) by apply Hi. assert (Hu : 0 <= total f) by (destruct Hi as (_ & _ & U); unfold is_u64 in U; lia).
  assert (Tt : u64 (u64 (total f + 1) + 1) <= total f + 2).
  { pose proof (u64_le (total f) 1 Hu ltac:(lia)). pose proof (u64_le (u64 (total f + 1)) 1 (u64_ge _) ltac:(lia)). lia. }
  unfold isterminal in Ht.
  assert (X : (exists s, transition (st f) (limit f) 0x7d (throttle f) = (s, CONSUME, 0x7d, throttle f) /\ s = RESET) \/
     (exists s, transition (st f) (limit f) 0x7d (throttle f) = (s, CONSUME, 0x7d, throttle f) /\ s = INVALID) \/
     (exists s, transition (st f) (limit f) 0x7d (throttle f) = (s, CONSUME, 0x7d, throttle f) /\
       (forall lim, transition s lim 0x7e (throttle f) = (ABORT, CONSUME, 0x7e, throttle f)) /\
       match s with ABORT | FAILED | OVERFLOW | INVALID | COMPLETE | FINAL => False | _ => True end)).
  { destruct (st f) eqn:E; try discriminate Ht;
      first [left; eexists; split; reflexivity
            |right; left; eexists; split; reflexivity
            |right; right; eexists; split; [reflexivity|split; [intros; reflexivity|exact I]]]. }
  destruct X as [(s & X & ->)|[(s & X & ->)|(s & X & Y & Hn)]].
  - pose proof (reader_step_consume _ _ _ _ X I) as R1. cbv zeta iota in R1.
    set (g := set_throttle _ _) in R1.
    destruct (reader_reset_flag g Hs eq_refl) as (f' & R & A & B & C & D & E & F).
    exists f'. split.
    { intros rest. rewrite tokens_abort, (reader_next _ _ _ _ R1). apply R. }
    split; [exact A|]. split; [exact B|]. split; [exact C|].
    split; [eapply undisturbed_trans; [|exact D]; unfold undisturbed, g; fs; tauto|]. split; [rewrite E; reflexivity|]. rewrite F. lia.
  - pose proof (reader_step_consume _ _ _ _ X I) as R1. cbv zeta iota in R1.
    set (g := set_throttle _ _) in R1.
    destruct (reader_reset_flag (reset g) Hs eq_refl) as (f' & R & A & B & C & D & E & F).
    exists f'. split.
    { intros rest. rewrite tokens_abort, (reader_next _ _ _ _ R1). apply R. }
    split; [exact A|]. split; [exact B|]. split; [exact C|].
    split; [eapply undisturbed_trans; [|exact D]; unfold undisturbed, g; fs; tauto|]. split; [rewrite E; reflexivity|]. rewrite F. lia.
  - assert (Hn' : match s with COMPLETE | FINAL => False | _ => True end) by (destruct s; auto).
    pose proof (reader_step_consume _ _ _ _ X Hn') as R1. cbv zeta in R1.
    set (g := set_throttle _ _) in R1.
    assert (R2 : reader_step f (Some 0x7d) = Some (g, 0)) by (rewrite R1; destruct s; try contradiction; reflexivity).
    assert (T2 : transition (st g) (limit g) 0x7e (throttle g) = (ABORT, CONSUME, 0x7e, throttle f)) by apply Y.
    pose proof (reader_step_consume _ _ _ _ T2 I) as R3. cbv zeta iota in R3.
    assert (P : exists f', reader_step g (Some 0x7e) = Some (f', 0) /\ armed f' /\ escape_pending f' = false /\ isterminal f' = false /\
      undisturbed f f' /\ throttle f' = throttle f /\ total f' <= total f + 2).
    { eexists. split; [exact R3|]. split; [apply armed_reset; [exact Hs|apply u64_range]|].
      unfold escape_pending, isterminal, undisturbed, g. fs. tauto. }
    destruct P as (f' & R4 & P). exists f'. split; [|exact P].
    intros rest. rewrite tokens_abort, (reader_next _ _ _ _ R2), (reader_next _ _ _ _ R4). reflexivity.
Qed.

(** The machine by itself: an abort inside a frame is an error. *)
Lemma abort_machine f : isterminal f = false -> st f <> RESET ->
  exists f', feed f (tokens abort) = Some f' /\ iserror f' = true /\ undisturbed f f'.
Proof.
  intros Ht Hr. unfold isterminal in Ht.
  assert (X : exists s, transition (st f) (limit f) 0x7d (throttle f) = (s, CONSUME, 0x7d, throttle f) /\
     exists s', (forall lim, transition s lim 0x7e (throttle f) = (s', CONSUME, 0x7e, throttle f)) /\ (s' = ABORT \/ s' = INVALID)).
  { destruct (st f) eqn:E; try discriminate Ht; try contradiction; eexists; (split; [reflexivity|]); eexists; (split; [intros; reflexivity|]); auto. }
  destruct X as (s & X & s' & Y & Z).
  cbn [abort tokens map feed]. change ESCAPE with 0x7d. change FLAG_T with 0x7e. rewrite (machine_consume _ _ _ _ X).
  erewrite machine_consume by (fs; apply Y).
  eexists. split; [reflexivity|]. split; [unfold iserror; fs; destruct Z as [-> | ->]; reflexivity|].
  unfold undisturbed. fs. tauto.
Qed.

(** * Octets other than newline complete no frame *)

Definition untaken (f f' : framer) : Prop :=
  size f' = size f /\ sequence f' = sequence f /\ previous f' = previous f /\ length_ f' = length_ f.

Lemma untaken_trans f g h : untaken f g -> untaken g h -> untaken f h.
Proof. unfold untaken. intuition congruence. Qed.

Lemma machine_total_le f c g : machine f (Some c) = Some g -> 0 <= total f -> total g <= total f + 1.
Proof.
  intros E Hu. unfold machine in E. destruct (transition _ _ _ _) as [[[s a] d] th].
  apply act_total in E. fsall. pose proof (u64_le (total f) 1 Hu ltac:(lia)). lia.
Qed.

Lemma armed_total f : armed f -> 0 <= total f.
Proof. intros ((_ & _ & U) & _). unfold is_u64 in U. lia. Qed.

Lemma reader_step_unfinished f c : armed f -> is_u8 c -> c <> 0x0a ->
  exists f', reader_step f (Some c) = Some (f', 0) /\ armed f' /\ untaken f f' /\ total f' <= total f + 1.
Proof.
  intros (Hi & Ha) Hc Hn. pose proof (armed_total f (conj Hi Ha)) as Hu.
  destruct Ha as [R|(esc & hp & k & B)].
  - destruct (step_quiescent f c) as (g & M & S1 & K & KR & D & _); [apply Hi|rewrite R; exact I|].
    pose proof (machine_total_le _ _ _ M Hu) as T. pose proof (machine_total _ _ _ M) as U.
    assert (UT : untaken f g) by (unfold untaken, keeps, keeps_received in *; tauto).
    destruct D as [[D _]|(_ & _ & B & _)].
    + exists g. split; [unfold reader_step; rewrite M, D, R; reflexivity|].
      split; [split; [split; [exact S1|split; [left; rewrite D, R; exact I|exact U]]|left; congruence]|]. auto.
    + exists g. pose proof (body_live _ _ _ _ B) as L. split; [exact (reader_step_live _ _ _ M L)|].
      split; [split; [split; [exact S1|split; [right; exact L|exact U]]|right; exact L]|]. auto.
  - destruct (step_body f esc hp k c) as (g & M & S1 & K & D); [apply Hi|exact Hc|exact B|].
    pose proof (machine_total_le _ _ _ M Hu) as T. pose proof (machine_total _ _ _ M) as U.
    destruct D as [[KR R]|(X & _)]; [|contradiction].
    assert (UT : untaken f g) by (unfold untaken, keeps, keeps_received in *; tauto).
    assert (LF : live g \/ failed (st g)) by (destruct R; eauto using body_live).
    destruct LF as [L|Fl].
    + exists g. split; [exact (reader_step_live _ _ _ M L)|].
      split; [split; [split; [exact S1|split; [right; exact L|exact U]]|right; exact L]|]. auto.
    + exists (reset g). split; [unfold reader_step; rewrite M; destruct Fl as [-> | [-> | [-> | ->]]]; reflexivity|].
      split; [apply armed_reset; assumption|]. auto.
Qed.

Lemma reader_unfinished ts : forall f, armed f -> octets ts -> Forall (fun c => c <> 0x0a) ts ->
  exists f', (forall rest, reader f (tokens ts ++ rest) = reader f' rest) /\ armed f' /\ untaken f f' /\
    total f' <= total f + Z.of_nat (length ts).
Proof.
  induction ts as [|c ts IH]; intros f A Ho Hn.
  - exists f. split; [reflexivity|]. split; [exact A|]. split; [unfold untaken; auto|]. cbn [length]. lia.
  - apply Forall_cons_iff in Ho. destruct Ho as [Hc Ho]. apply Forall_cons_iff in Hn. destruct Hn as [Hc7 Hn].
    destruct (reader_step_unfinished f c A Hc Hc7) as (g & R & Ag & Ug & Tg).
    destruct (IH g Ag Ho Hn) as (f' & R' & A' & U' & T').
    exists f'. split.
    { intros rest. change (tokens (c :: ts) ++ rest) with (Some c :: (tokens ts ++ rest)).
      rewrite (reader_next _ _ _ _ R). apply R'. }
    split; [exact A'|]. split; [eapply untaken_trans; eassumption|]. cbn [length]. lia.
Qed.

Lemma armed_nonterminal f : armed f -> isterminal f = false.
Proof.
  intros (_ & [R|(esc & hp & k & B)]); [unfold isterminal; rewrite R; reflexivity|].
  pose proof (body_not_quiescent _ _ _ _ B) as N. unfold isterminal. destruct (st f); try reflexivity; exfalso; apply N; exact I.
Qed.

Lemma frame_prefix wire payload seq n : valid_frame wire payload seq -> (n < length wire)%nat ->
  octets (firstn n wire) /\ Forall (fun c => c <> 0x0a) (firstn n wire).
Proof.
  intros V N. pose proof (valid_frame_octets _ _ _ V) as O.
  assert (FF : forall (P : Z -> Prop) l m, Forall P l -> Forall P (firstn m l)).
  { clear. intros P l. induction l as [|x l IH]; intros m F; [rewrite firstn_nil; constructor|].
    inversion F; subst. destruct m; cbn [firstn]; constructor; auto. }
  split; [apply FF; exact O|].
  destruct (valid_frame_clean _ _ _ V) as (mid & -> & H).
  rewrite app_assoc in *. rewrite app_length in N. cbn [length] in N.
  rewrite firstn_app. replace (n - length ([0x7e]%Z ++ mid))%nat with 0%nat by lia. cbn [firstn]. rewrite app_nil_r.
  apply FF. constructor; [lia|]. eapply Forall_impl; [|exact H]. cbn. tauto.
Qed.

Lemma abandoned f gen payload wire gen' n wire2 payload2 seq2 rest :
  reachable f -> isterminal f = false -> total f < 4611686018427387904 ->
  octets payload -> writer gen payload = Some (wire, gen') -> (n < length wire)%nat ->
  valid_frame wire2 payload2 seq2 -> 0 < Z.of_nat (length payload2) <= size f ->
  exists f', reader f (tokens (firstn n wire ++ abort ++ wire2) ++ rest) = Some (f', total f', rest) /\ total f' > 0 /\
    iscomplete f' = true /\ getlength f' = Z.of_nat (length payload2) /\
    firstn (length payload2) (buffer f') = payload2 /\ sequence f' = seq2 /\ previous f' = sequence f.
Proof.
  intros Hr Ht Hl Ho W N V2 Hs.
  destruct (writer_valid _ _ _ _ Ho W) as (V & _ & _).
  destruct (frame_prefix _ _ _ n V N) as [O1 O2].
  pose proof (valid_frame_length _ _ _ V) as L1. pose proof (valid_frame_length _ _ _ V2) as L2.
  assert (B1 : Z.of_nat (length payload) <= 65535) by apply V. assert (B2 : Z.of_nat (length payload2) <= 65535) by apply V2.
  destruct (reader_unfinished (firstn n wire) f (nonterminal_armed f Hr Ht) O1 O2) as (g & R1 & A1 & U1 & T1).
  destruct (abort_reader g (proj1 A1) (armed_nonterminal g A1)) as (h & R2 & A2 & E2 & _ & U2 & _ & T2).
  assert (Ln : (length (firstn n wire) <= n)%nat) by apply firstn_le_length.
  assert (Sz : size h = size f) by (unfold undisturbed, untaken in *; intuition congruence).
  destruct (reader_frame h wire2 payload2 seq2 rest A2 E2 V2 ltac:(lia) ltac:(lia)) as (f' & R & T & _ & _ & _ & C & P & L & Q & Pr).
  exists f'. split.
  { unfold tokens in *. rewrite !map_app, <- !app_assoc, R1, R2. exact R. }
  apply complete_iff in C.
  split; [exact T|]. split; [exact C|]. split; [unfold getlength; rewrite C; exact L|]. split; [exact P|]. split; [exact Q|].
  rewrite Pr. unfold undisturbed, untaken in *. intuition congruence.
Qed.

(** * Terminal states *)

Lemma terminal_step f c : isterminal f = true ->
  exists f', machine f (Some c) = Some f' /\ st f' = st f /\ undisturbed f f'.
Proof.
  intros T. unfold isterminal in T.
  assert (X : transition (st f) (limit f) c (throttle f) = (st f, CONSUME, c, flow c (throttle f)))
    by (destruct (st f); try discriminate; reflexivity).
  eexists. split; [exact (machine_consume _ _ _ _ X)|]. split; [reflexivity|]. unfold undisturbed. fs. tauto.
Qed.

Lemma terminal_sticky l : forall f, isterminal f = true ->
  exists f', feed f (tokens l) = Some f' /\ st f' = st f /\ undisturbed f f'.
Proof.
  induction l as [|c l IH]; intros f T; [exists f; split; [reflexivity|]; split; [reflexivity|]; unfold undisturbed; tauto|].
  destruct (terminal_step f c T) as (g & M & S1 & U1).
  assert (T1 : isterminal g = true) by (unfold isterminal in *; rewrite S1; exact T).
  destruct (IH g T1) as (f' & F & S2 & U2). exists f'. cbn [tokens map feed]. rewrite M.
  split; [exact F|]. split; [congruence|]. eapply undisturbed_trans; eassumption.
Qed.

Lemma end_of_file f : exists f', machine f None = Some f' /\ undisturbed f f' /\
  iscomplete f' = false /\ iserror f' = true /\ isterminal f' = true /\
  (forall rest, reader f (None :: rest) = Some (f', -1, rest)).
Proof.
  assert (M : exists f', machine f None = Some f' /\ st f' = FINAL /\ undisturbed f f').
  { eexists. split; [unfold machine; fs; cbn [transition act]; reflexivity|]. split; [reflexivity|]. unfold undisturbed. fs. tauto. }
  destruct M as (f' & M & S1 & U). exists f'. split; [exact M|]. split; [exact U|].
  split; [unfold iscomplete; rewrite S1; reflexivity|]. split; [unfold iserror; rewrite S1; reflexivity|].
  split; [unfold isterminal; rewrite S1; reflexivity|].
  intros rest. cbn [reader]. unfold reader_step. rewrite M, S1. reflexivity.
Qed.

(** * Empty frames *)

Lemma empty_frame f wire seq rest : reachable f -> isterminal f = false -> escape_pending f = false ->
  valid_frame wire [] seq ->
  exists f', reader f (tokens wire ++ rest) = reader f' rest /\ isterminal f' = false /\ sequence f' = seq /\ previous f' = sequence f.
Proof.
  intros Hr Ht He V. destruct (nonterminal_armed f Hr Ht) as (Hi & Ha).
  assert (Hst : st f = RESET \/ exists hp k, body f false hp k).
  { destruct Ha as [R|(esc & hp & k & B)]; [auto|right].
    pose proof (body_escape _ _ _ _ B) as Be. assert (Et : esc = false) by congruence. clear Be. subst esc. eauto. }
  destruct (frame_received f wire [] seq (proj1 Hi) (proj2 (proj2 Hi)) Hst V) as (b & g & f' & Ew & Ins & M & S1 & K & C & P1 & P2 & P3 & P4 & _).
  { destruct Hi as (Sh & _). unfold shape in Sh. cbn [length]. lia. }
  exists (reset f'). split.
  { rewrite Ew. unfold tokens. rewrite map_app, <- app_assoc. fold (tokens b).
    rewrite (inside_reader _ _ _ _ Ins). change (map Some [10] ++ rest) with (Some 10 :: rest).
    apply reader_next. unfold reader_step. rewrite M, C, P2. reflexivity. }
  split; [reflexivity|]. split; assumption.
Qed.

(** * Frames that are too large *)

Definition big (m : list Z) (f : framer) : framer := set_size 65535 (set_buffer m f).

Lemma big_store m f c : here f = RLength \/ here f = RSequence \/ here f = RSum ->
  store c (big m f) = option_map (big m) (store c f) /\
  (forall f', store c f = Some f' -> buffer f' = buffer f /\ size f' = size f /\ st f' = st f).
Proof.
  intros H. unfold store, big. fs. destruct (limit f <=? 0); [split; [reflexivity|discriminate]|].
  destruct H as [H|[H|H]]; rewrite H; destruct (put _ _ _); (split; [reflexivity|]); intros f' E; try discriminate E; injection E as <-; auto.
Qed.

Lemma big_machine m f c s a d th :
  transition (st f) (limit f) c (throttle f) = (s, a, d, th) ->
  here f = RLength \/ here f = RSequence \/ here f = RSum ->
  a = STORE \/ a = A_LENGTH \/ a = A_SEQUENCE ->
  machine (big m f) (Some c) = option_map (big m) (machine f (Some c)) /\
  forall f', machine f (Some c) = Some f' -> buffer f' = buffer f /\ size f' = size f.
Proof.
  intros T H A. rewrite (machine_some _ _ _ _ _ _ T).
  assert (T' : transition (st (big m f)) (limit (big m f)) c (throttle (big m f)) = (s, a, d, th)) by exact T.
  rewrite (machine_some _ _ _ _ _ _ T').
  change (set_throttle th (set_st s (set_total (u64 (total (big m f) + 1)) (big m f)))) with
    (big m (set_throttle th (set_st s (set_total (u64 (total f + 1)) f)))).
  set (g := set_throttle th _). assert (Hg : here g = RLength \/ here g = RSequence \/ here g = RSum) by exact H.
  destruct (big_store m g d Hg) as [E1 E2].
  assert (Bg : buffer g = buffer f /\ size g = size f) by (split; reflexivity).
  destruct A as [-> | [-> | ->]]; cbn [act]; unfold act_length, act_sequence; rewrite E1; destruct (store d g) as [x|]; cbn [option_map];
    try (split; [reflexivity|discriminate]); destruct (E2 x eq_refl) as (B1 & B2 & _); (split; [reflexivity|]); intros f' X; injection X as <-; fs; intuition congruence.
Qed.

Lemma body_header f esc hp : body f esc hp [] -> (length hp < 6)%nat ->
  here f = RLength \/ here f = RSequence \/ here f = RSum.
Proof.
  intros B L. inversion B; subst; auto; exfalso; rewrite app_length, header_length in L; lia.
Qed.

Lemma body_big m f esc hp : (length hp < 6)%nat -> body f esc hp [] <-> body (big m f) esc hp [].
Proof.
  intros L. split; intros B; inversion B as [? ? A1 A2 A3 A4 A5 A6 A7 A8|? ? ? A1 A2 A3 A4 A5 A6 A7 A8 A9 A10 A11 A12|? ? ? ? A1 A2 A3 A4 A5 A6 A7 A8 A9 A10 A11 A12 A13 A14 A15|? ? ? ?|? ? ? ?|? ? ?]; subst;
    try (exfalso; rewrite app_length, header_length in L; lia).
  - apply b_length; assumption.
  - apply b_sequence; try assumption; reflexivity.
  - apply b_fletcher; try assumption; reflexivity.
  - apply b_length; assumption.
  - apply b_sequence; try assumption; reflexivity.
  - apply b_fletcher; try assumption; reflexivity.
Qed.

Lemma header_transition f esc hp c : body f esc hp [] -> ~ reserved c ->
  ((length hp < 5)%nat -> exists s a, transition (st f) (limit f) c (throttle f) = (s, a, unmask esc c, throttle f) /\ (a = STORE \/ a = A_LENGTH \/ a = A_SEQUENCE)) /\
  (length hp = 5%nat -> transition (st f) (limit f) c (throttle f) = (PAYLOAD, A_FLETCHER, unmask esc c, throttle f)).
Proof.
  intros B R. destruct (not_reserved_eqb c R) as (E1 & E2 & E3 & E4 & E5).
  inversion B as [? ? A1 A2 A3 A4 A5 A6 A7 A8|? ? ? A1 A2 A3 A4 A5 A6 A7 A8 A9 A10 A11 A12|? ? ? ? A1 A2 A3 A4 A5 A6 A7 A8 A9 A10 A11 A12 A13 A14 A15|? ? ? ?|? ? ? ?|? ? ?]; subst;
    try (rewrite ?app_length, ?header_length; split; intros; exfalso; lia).
  - split; [intros _|lia]. destruct esc.
    + rewrite (transition_field_data f true c LENGTH_ESCAPED LENGTH SEQUENCE A_LENGTH) by (auto || discriminate).
      destruct (1 <? limit f); eauto 10.
    + destruct hp as [|x hp].
      * rewrite A3. cbn [transition]. unfold on_flag. rewrite E1, E2, E3, E4, E5. cbn [orb unmask]. eauto 10.
      * rewrite (transition_field_data f false c LENGTH_ESCAPED LENGTH SEQUENCE A_LENGTH) by auto.
        destruct (1 <? limit f); eauto 10.
  - rewrite app_length. split; [intros _|lia].
    rewrite (transition_field_data f esc c SEQUENCE_ESCAPED SEQUENCE FLETCHER A_SEQUENCE) by auto.
    destruct (1 <? limit f); eauto 10.
  - rewrite !app_length.
    rewrite (transition_field_data f esc c FLETCHER_ESCAPED FLETCHER PAYLOAD A_FLETCHER) by auto.
    split; intros L.
    + replace (1 <? limit f) with true by (symmetry; apply Z.ltb_lt; lia). eauto 10.
    + replace (1 <? limit f) with false by (symmetry; apply Z.ltb_ge; lia). reflexivity.
Qed.

Lemma app_same_length {A} (l1 : list A) : forall l2 r1 r2, l1 ++ r1 = l2 ++ r2 -> length l1 = length l2 -> l1 = l2.
Proof.
  induction l1 as [|x l1 IH]; intros [|y l2] r1 r2 E L; try discriminate L; [reflexivity|].
  cbn [app] in E. injection E as -> E. f_equal. eapply IH; [exact E|]. cbn [length] in L. lia.
Qed.

Section Oversize.
Variables (len seq : Z) (m : list Z).
Hypothesis Hlen : is_u16 len.
Hypothesis Hseq : is_u16 seq.
Hypothesis Hm : length m = Z.to_nat 65535.

Lemma header_fits hp x d r : hp ++ x :: d = header len seq ++ r -> (length hp < 6)%nat -> fits 65535 (hp ++ [x]) [].
Proof.
  intros E L. exists len, seq, (repeat 0 (Z.to_nat len)), (skipn (length (hp ++ [x])) (header len seq) ++ repeat 0 (Z.to_nat len)), (trailer (repeat 0 (Z.to_nat len))).
  unfold is_u16 in *. rewrite repeat_length.
  assert (P : firstn (length (hp ++ [x])) (header len seq) = hp ++ [x]).
  { assert (Q : firstn (length (hp ++ [x])) (hp ++ x :: d) = hp ++ [x]).
    { change (x :: d) with ([x] ++ d). rewrite app_assoc, firstn_app, Nat.sub_diag, firstn_all. cbn [firstn]. apply app_nil_r. }
    rewrite E, firstn_app in Q. rewrite header_length in Q.
    replace (length (hp ++ [x]) - 6)%nat with 0%nat in Q by (rewrite app_length; cbn [length]; lia).
    cbn [firstn] in Q. rewrite app_nil_r in Q. exact Q. }
  split; [lia|]. split; [lia|]. split; [lia|]. split; [lia|]. split; [|auto].
  rewrite <- P at 1. rewrite app_assoc, firstn_skipn. reflexivity.
Qed.

Lemma shape_big f : shape f -> shape (big m f).
Proof. unfold shape, big. fs. rewrite Hm. intuition lia. Qed.

Lemma header_step f esc hp c d r : shape f -> is_u8 c -> ~ reserved c -> body f esc hp [] -> (length hp < 5)%nat ->
  hp ++ unmask esc c :: d = header len seq ++ r ->
  exists f', machine f (Some c) = Some f' /\ body f' false (hp ++ [unmask esc c]) [] /\ shape f' /\ undisturbed f f' /\ is_u64 (total f') /\ total f' <= u64 (total f + 1).
Proof.
  intros Hs Hc Hr B L E.
  destruct (proj1 (header_transition f esc hp c B Hr) L) as (s & a & T & A).
  destruct (big_machine m f c s a _ _ T (body_header _ _ _ B ltac:(lia)) A) as [M1 M2].
  destruct (data_step (big m f) esc hp c (shape_big f Hs) Hc Hr (proj1 (body_big m f esc hp ltac:(lia)) B)) as (g & Mg & Bg & Cg).
  { exact (header_fits hp _ d r E ltac:(lia)). }
  rewrite Mg in M1. destruct (machine f (Some c)) as [f'|] eqn:M; [|discriminate M1]. cbn [option_map] in M1. injection M1 as ->.
  destruct (M2 f' eq_refl) as [X1 X2]. exists f'. split; [reflexivity|].
  split; [apply (body_big m); [rewrite app_length; cbn [length]; lia|exact Bg]|].
  destruct Cg as (S1 & K & KR & Tt & _).
  split; [unfold shape, big in *; fsall; intuition (try congruence; try (rewrite X1, X2 in *; lia))|].
  split; [unfold undisturbed, keeps, keeps_received, big in *; fsall; tauto|].
  split; [eapply machine_total; exact M|]. change (total f' = u64 (total f + 1)) in Tt. lia.
Qed.

Lemma header_escape f hp : shape f -> body f false hp [] -> (length hp < 6)%nat ->
  exists f', machine f (Some 0x7d) = Some f' /\ body f' true hp [] /\ shape f' /\ undisturbed f f' /\ is_u64 (total f') /\ total f' <= u64 (total f + 1).
Proof.
  intros Hs B L.
  assert (T : exists s, transition (st f) (limit f) 0x7d (throttle f) = (s, CONSUME, 0x7d, throttle f)).
  { inversion B as [? ? A1 A2 A3|? ? ? A1 A2 A3 A4 A5|? ? ? ? A1 A2 A3 A4 A5 A6 A7|? ? ? ?|? ? ? ?|? ? ?]; subst;
      try (exfalso; rewrite app_length, header_length in L; lia).
    - rewrite A3. destruct hp; eexists; reflexivity.
    - rewrite A5. eexists; reflexivity.
    - rewrite A7. eexists; reflexivity. }
  destruct T as (s & T). pose proof (machine_consume _ _ _ _ T) as M0.
  assert (U : exists f', machine f (Some 0x7d) = Some f' /\ undisturbed f f' /\ total f' = u64 (total f + 1)).
  { eexists. split; [exact M0|]. unfold undisturbed. fs. tauto. }
  clear M0. destruct U as (f' & M & U & Tt).
  destruct (step_body f false hp [] 0x7d Hs ltac:(unfold is_u8; lia) B) as (g & Mg & S1 & K & D).
  rewrite M in Mg. injection Mg as <-. exists f'. split; [exact M|].
  destruct D as [[KR R]|(X & _)]; [|discriminate].
  split; [|split; [exact S1|]; split; [exact U|]; split; [eapply machine_total; exact M|lia]].
  destruct R as [F|F|F|F|F|F G]; try (exfalso; revert F; unfold flow_octet, FLAG_T, reserved, flow_octet; lia); try assumption.
  exfalso. destruct G as [G|[[G _]|[(_ & l & q & p & _ & _ & ->)|(G & _)]]]; try discriminate G.
  - rewrite app_length, header_length in L. lia.
  - apply G. unfold reserved. auto.
Qed.

Lemma header_last f esc hp c d r : shape f -> is_u8 c -> ~ reserved c -> body f esc hp [] -> length hp = 5%nat ->
  hp ++ unmask esc c :: d = header len seq ++ r -> size f < len ->
  exists f', machine f (Some c) = Some f' /\ st f' = OVERFLOW /\ shape f' /\ undisturbed f f' /\ is_u64 (total f') /\ total f' <= u64 (total f + 1).
Proof.
  intros Hs Hc Hr B L E Hz.
  pose proof (proj2 (header_transition f esc hp c B Hr) L) as T.
  pose proof (body_header _ _ _ B ltac:(lia)) as Hh.
  destruct (data_step (big m f) esc hp c (shape_big f Hs) Hc Hr (proj1 (body_big m f esc hp ltac:(lia)) B)) as (g & Mg & Bg & Cg).
  { exact (header_fits hp _ d r E ltac:(lia)). }
  assert (Eh : hp ++ [unmask esc c] = header len seq ++ []).
  { rewrite app_nil_r. change (unmask esc c :: d) with ([unmask esc c] ++ d) in E. rewrite app_assoc in E.
    apply app_same_length in E; [exact E|]. rewrite header_length, app_length. cbn [length]. lia. }
  rewrite Eh in Bg.
  destruct (step_body f esc hp [] c Hs Hc B) as (f' & M & S1 & K & D).
  assert (Nn : c <> 0x0a) by (intros ->; apply Hr; unfold reserved; auto).
  destruct D as [[KR R]|(X & _)]; [|contradiction]. clear R.
  exists f'. split; [exact M|].
  rewrite (machine_some _ _ _ _ _ _ T) in M.
  assert (T' : transition (st (big m f)) (limit (big m f)) c (throttle (big m f)) = (PAYLOAD, A_FLETCHER, unmask esc c, throttle f)) by exact T.
  rewrite (machine_some _ _ _ _ _ _ T') in Mg.
  change (set_throttle (throttle f) (set_st PAYLOAD (set_total (u64 (total (big m f) + 1)) (big m f)))) with
    (big m (set_throttle (throttle f) (set_st PAYLOAD (set_total (u64 (total f + 1)) f)))) in Mg.
  cbn [act] in M, Mg. unfold act_fletcher in M, Mg.
  set (h := set_throttle (throttle f) _) in M, Mg.
  assert (Hg : here h = RLength \/ here h = RSequence \/ here h = RSum) by exact Hh.
  destruct (big_store m h (unmask esc c) Hg) as [E1 E2]. rewrite E1 in Mg.
  destruct (store (unmask esc c) h) as [x|] eqn:Sx; [|discriminate M]. cbn [option_map] in Mg.
  destruct (E2 x eq_refl) as (B1 & B2 & _).
  assert (Tx : total x = u64 (total f + 1)).
  { revert Sx. unfold store. destruct (limit h <=? 0); [discriminate|]. destruct (here h); try discriminate; destruct (put _ _ _); intros X; try discriminate X; injection X as <-; reflexivity. }
  change (sum (big m x)) with (sum x) in Mg. change (fa (big m x)) with (fa x) in Mg. change (fb (big m x)) with (fb x) in Mg.
  change (length0b (big m x)) with (length0b x) in Mg. 
  destruct (negb (nth 0 (sum x) 0 =? fa x) || negb (nth 1 (sum x) 0 =? fb x)).
  { exfalso. injection Mg as <-. revert Bg. intros Bg. apply body_not_quiescent in Bg. apply Bg. exact I. }
  cbv zeta in M, Mg. unfold big in Mg. fsall.
  assert (Lg : length0 g = ntohs (length0b x)).
  { destruct (ntohs (length0b x) =? 0); [injection Mg as <-; reflexivity|]. destruct (65535 <? ntohs (length0b x)); injection Mg as <-; reflexivity. }
  assert (Lq : length0 g = len).
  { clear - Bg Lg. remember (header len seq ++ []) as q eqn:Eq.
    destruct Bg as [? ? A1 A2|? ? ? A1 A2 A3 A4|? ? ? ? A1 A2 A3 A4 A5 A6|esc' len' seq' p' A1 A2 A3 A4 A5 A6 A7 A8 A9 A10|len' seq' p' k' A1 A2 A3 A4 A5 A6 A7 A8 A9 A10 A11 A12|len' seq' p' A1 A2 A3 A4 A5 A6 A7].
    - subst hp. rewrite app_length, header_length in A2. lia.
    - apply (f_equal (@length Z)) in Eq. rewrite !app_length, header_length in Eq. cbn [length] in Eq. lia.
    - apply (f_equal (@length Z)) in Eq. rewrite !app_length, header_length in Eq. cbn [length] in Eq. lia.
    - apply header_inj in Eq. destruct Eq as (-> & _). exact A10.
    - apply header_inj in Eq. destruct Eq as (-> & _). exact A12.
    - apply header_inj in Eq. destruct Eq as (-> & _). exact A7. }
  assert (Hz0 : 0 <= size f) by (unfold shape in Hs; lia).
  assert (Nl : ntohs (length0b x) = len) by congruence. rewrite Nl in M.
  replace (len =? 0) with false in M by (symmetry; apply Z.eqb_neq; lia).
  assert (Bh : buffer h = buffer f /\ size h = size f) by (split; reflexivity). destruct Bh as [Bh1 Bh2].
  replace (size x <? len) with true in M by (symmetry; apply Z.ltb_lt; rewrite B2, Bh2; exact Hz).
  injection M as <-. split; [reflexivity|]. split; [exact S1|].
  unfold undisturbed, keeps, keeps_received in *. fsall.
  split; [intuition congruence|]. rewrite Tx. split; [apply u64_range|lia].
Qed.

Lemma header_run w d : encodes w d -> forall f hp r, octets w -> shape f -> is_u64 (total f) -> body f false hp [] -> (length hp < 6)%nat ->
  hp ++ d = header len seq ++ r -> size f < len ->
  exists w1 c w2 f1 f2, w = w1 ++ c :: w2 /\ inside f w1 f1 /\ machine f1 (Some c) = Some f2 /\ st f2 = OVERFLOW /\
    shape f2 /\ is_u64 (total f2) /\ undisturbed f f2.
Proof.
  induction 1 as [|c w d Hc W IH|c w d Hc W IH]; intros f hp r Ho Hs Ht B L E Hz.
  - exfalso. apply (f_equal (@length Z)) in E. rewrite !app_length, header_length in E. cbn [length] in E. lia.
  - apply Forall_cons_iff in Ho. destruct Ho as [Hc8 Ho].
    destruct (Nat.eq_dec (length hp) 5) as [L5|L5].
    + destruct (header_last f false hp c d r Hs Hc8 Hc B L5 E Hz) as (f2 & M & S2 & Sh & U & T & _).
      exists [], c, w, f, f2. split; [reflexivity|]. split; [constructor|]. tauto.
    + destruct (header_step f false hp c d r Hs Hc8 Hc B ltac:(lia) E) as (g & M & Bg & Sg & Ug & Tg & _).
      destruct (IH g (hp ++ [c]) r Ho Sg Tg Bg) as (w1 & c' & w2 & f1 & f2 & -> & I1 & M2 & S2 & Sh & T2 & U2).
      { rewrite app_length. cbn [length]. lia. }
      { rewrite <- app_assoc. exact E. }
      { unfold undisturbed in Ug. destruct Ug as (_ & -> & _). exact Hz. }
      exists (c :: w1), c', w2, f1, f2. split; [reflexivity|].
      split; [econstructor; [exact M|eapply body_live; exact Bg|exact I1]|]. split; [exact M2|]. split; [exact S2|]. split; [exact Sh|]. split; [exact T2|].
      eapply undisturbed_trans; eassumption.
  - apply Forall_cons_iff in Ho. destruct Ho as [_ Ho]. apply Forall_cons_iff in Ho. destruct Ho as [Hc8 Ho].
    destruct (header_escape f hp Hs B L) as (e & Me & Be & Se & Ue & Te & _).
    assert (Ze : size e < len) by (unfold undisturbed in Ue; destruct Ue as (_ & -> & _); exact Hz).
    destruct (Nat.eq_dec (length hp) 5) as [L5|L5].
    + destruct (header_last e true hp c d r Se Hc8 Hc Be L5 E Ze) as (f2 & M & S2 & Sh & U & T & _).
      exists [0x7d], c, w, e, f2. split; [reflexivity|].
      split; [econstructor; [exact Me|eapply body_live; exact Be|constructor]|]. split; [exact M|]. split; [exact S2|]. split; [exact Sh|]. split; [exact T|].
      eapply undisturbed_trans; eassumption.
    + destruct (header_step e true hp c d r Se Hc8 Hc Be ltac:(lia) E) as (g & M & Bg & Sg & Ug & Tg & _).
      destruct (IH g (hp ++ [Z.lxor c 32]) r Ho Sg Tg Bg) as (w1 & c' & w2 & f1 & f2 & -> & I1 & M2 & S2 & Sh & T2 & U2).
      { rewrite app_length. cbn [length]. lia. }
      { rewrite <- app_assoc. exact E. }
      { unfold undisturbed in Ug. destruct Ug as (_ & -> & _). exact Ze. }
      exists (0x7d :: c :: w1), c', w2, f1, f2. split; [reflexivity|].
      split; [econstructor; [exact Me|eapply body_live; exact Be|]; econstructor; [exact M|eapply body_live; exact Bg|exact I1]|].
      split; [exact M2|]. split; [exact S2|]. split; [exact Sh|]. split; [exact T2|].
      eapply undisturbed_trans; [exact Ue|]. eapply undisturbed_trans; eassumption.
Qed.
End Oversize.

Lemma reader_reset_skip ts : forall f, shape f -> is_u64 (total f) -> st f = RESET -> Forall (fun c => c <> 0x7e) ts ->
  exists f', (forall rest, reader f (tokens ts ++ rest) = reader f' rest) /\ st f' = RESET /\ undisturbed f f'.
Proof.
  induction ts as [|c ts IH]; intros f Hs Hu R Hn.
  - exists f. split; [reflexivity|]. split; [exact R|]. unfold undisturbed. tauto.
  - apply Forall_cons_iff in Hn. destruct Hn as [Hc Hn].
    assert (T : transition (st f) (limit f) c (throttle f) = (RESET, CONSUME, c, flow c (throttle f))).
    { rewrite R. cbn [transition]. unfold on_reset. apply Z.eqb_neq in Hc. unfold FLAG_T. rewrite Hc. reflexivity. }
    pose proof (reader_step_consume _ _ _ _ T I) as R1. cbv zeta iota in R1.
    assert (P : exists g, reader_step f (Some c) = Some (g, 0) /\ shape g /\ is_u64 (total g) /\ st g = RESET /\ undisturbed f g).
    { eexists. split; [exact R1|]. split; [exact Hs|]. split; [apply u64_range|]. split; [reflexivity|]. unfold undisturbed. fs. tauto. }
    destruct P as (g & R2 & Sg & Ug & Rg & Dg).
    destruct (IH g Sg Ug Rg Hn) as (f' & R3 & S' & D'). exists f'. split.
    { intros rest. change (tokens (c :: ts) ++ rest) with (Some c :: (tokens ts ++ rest)). rewrite (reader_next _ _ _ _ R2). apply R3. }
    split; [exact S'|]. eapply undisturbed_trans; eassumption.
Qed.

Lemma oversize f wire payload seq : reachable f -> isterminal f = false -> escape_pending f = false ->
  valid_frame wire payload seq -> size f < Z.of_nat (length payload) ->
  (exists f', (forall rest, reader f (tokens wire ++ rest) = reader f' rest) /\ isterminal f' = false /\ escape_pending f' = false /\ undisturbed f f') /\
  (exists f', feed f (tokens wire) = Some f' /\ st f' = OVERFLOW /\ undisturbed f f').
Proof.
  intros Hr Ht He V Hz. destruct (nonterminal_armed f Hr Ht) as (Hi & Ha).
  assert (Hst : st f = RESET \/ exists hp k, body f false hp k).
  { destruct Ha as [R|(esc & hp & k & B)]; [auto|right].
    pose proof (body_escape _ _ _ _ B) as Be. assert (Et : esc = false) by congruence. clear Be. subst esc. eauto. }
  pose proof V as V0. destruct V as (V1 & V2 & V3 & w & Ew & W).
  destruct (flag_step f (proj1 Hi) Hst) as (f1 & M1 & S1 & K1 & KR1 & B1 & T1 & Th1).
  assert (Hlen : is_u16 (Z.of_nat (length payload))) by (unfold is_u16; lia).
  assert (Ho : octets w).
  { eapply encodes_octets; [exact W|]. apply Forall_app. split; [apply header_octets; assumption|assumption]. }
  assert (U1 : undisturbed f f1).
  { unfold machine in M1. revert M1. fs.
    assert (Q : exists th, transition (st f) (limit f) 0x7e (throttle f) = (FLAG, A_RESET, 0x7e, th) \/ transition (st f) (limit f) 0x7e (throttle f) = (FLAG, CONSUME, 0x7e, th)).
    { unfold isterminal in Ht. unfold escape_pending in He. destruct (st f); try discriminate; eexists; ((left; reflexivity) || (right; reflexivity)). }
    destruct Q as (th & [-> | ->]); cbn [act]; intros X; injection X as <-; unfold undisturbed, act_reset; fs; tauto. }
  assert (Tu : is_u64 (total f1)) by (eapply machine_total; exact M1).
  destruct (header_run (Z.of_nat (length payload)) seq (repeat 0 (Z.to_nat 65535)) Hlen V3 (repeat_length _ _) w _ W f1 [] payload Ho S1 Tu B1 ltac:(cbn [length]; lia) eq_refl)
    as (w1 & c & w2 & g & h & Eq & I1 & M2 & S2 & Sh & T2 & U2).
  { unfold undisturbed in U1. destruct U1 as (_ & -> & _). exact Hz. }
  destruct (valid_frame_clean _ _ _ V0) as (mid & Em & Hm).
  assert (Emid : mid = w1 ++ c :: w2 ++ trailer payload).
  { rewrite Ew, Eq in Em. cbn [app] in Em. injection Em as Em.
    assert (E2 : (w1 ++ c :: w2 ++ trailer payload) ++ [10] = mid ++ [10]).
    { etransitivity; [|exact Em]. rewrite <- !app_assoc. cbn [app]. rewrite <- ?app_assoc. reflexivity. }
    apply app_inv_tail in E2. symmetry. exact E2. }
  assert (Ewire : wire = 0x7e :: w1 ++ c :: (w2 ++ trailer payload ++ [10])).
  { rewrite Ew, Eq. cbn [app]. f_equal. rewrite <- app_assoc. reflexivity. }
  assert (Hn : Forall (fun c => c <> 0x7e) (w2 ++ trailer payload ++ [10])).
  { rewrite Emid in Hm. apply Forall_app in Hm. destruct Hm as [_ Hm]. apply Forall_cons_iff in Hm. destruct Hm as [_ Hm].
    rewrite app_assoc. apply Forall_app. split; [eapply Forall_impl; [|exact Hm]; cbn; tauto|]. constructor; [lia|constructor]. }
  assert (L1 : live f1) by (eapply body_live; exact B1).
  split.
  - destruct (reader_reset_skip (w2 ++ trailer payload ++ [10]) (reset h) Sh T2 eq_refl Hn) as (f' & R & S' & D).
    exists f'. split.
    { intros rest. rewrite Ewire.
      replace (tokens (0x7e :: w1 ++ c :: w2 ++ trailer payload ++ [10]) ++ rest) with
        (Some 0x7e :: (tokens w1 ++ Some c :: (tokens (w2 ++ trailer payload ++ [10]) ++ rest)))
        by (unfold tokens; cbn [map app]; rewrite (map_app Some w1), <- app_assoc; reflexivity).
      rewrite (reader_next _ _ _ _ (reader_step_live _ _ _ M1 L1)), (inside_reader _ _ _ _ I1).
      assert (R2 : reader_step g (Some c) = Some (reset h, 0)) by (unfold reader_step; rewrite M2, S2; reflexivity).
      rewrite (reader_next _ _ _ _ R2). apply R. }
    split; [unfold isterminal; rewrite S'; reflexivity|]. split; [unfold escape_pending; rewrite S'; reflexivity|].
    eapply undisturbed_trans; [exact U1|]. eapply undisturbed_trans; [exact U2|]. exact D.
  - destruct (terminal_sticky (w2 ++ trailer payload ++ [10]) h) as (f' & F & S' & D); [unfold isterminal; rewrite S2; reflexivity|].
    exists f'. split.
    { rewrite Ewire.
      replace (tokens (0x7e :: w1 ++ c :: w2 ++ trailer payload ++ [10])) with
        (Some 0x7e :: (tokens w1 ++ Some c :: tokens (w2 ++ trailer payload ++ [10])))
        by (unfold tokens; cbn [map app]; rewrite (map_app Some w1); reflexivity).
      cbn [feed]. rewrite M1, (inside_feed _ _ _ _ I1). cbn [feed]. rewrite M2. exact F. }
    split; [congruence|]. eapply undisturbed_trans; [exact U1|]. eapply undisturbed_trans; eassumption.
Qed.
