From Coq Require Import ZArith List Bool Lia Arith.
From Verif Require Import CInt ChecksumModel ChecksumSpec ChecksumProofs FramerModel FramerSpec FramerProofs.
Import ListNotations.
Local Open Scope Z_scope.

Local Hint Resolve octets0 octets1 octets2 octets_snoc : core.

(** * Whole histories *)

Definition quiescent (s : state) : Prop :=
  match s with
  | ABORT | COMPLETE | FAILED | FINAL | IDLE | INVALID | OVERFLOW | RESET => True
  | _ => False
  end.

Definition live (f : framer) : Prop := exists esc hp k, body f esc hp k.

Definition inv (f : framer) : Prop :=
  shape f /\ (quiescent (st f) \/ live f) /\ is_u64 (total f).

Lemma body_not_quiescent f esc hp k : body f esc hp k -> ~ quiescent (st f).
Proof.
  intros H Q. destruct H as [? ? ? ? E|? ? ? ? ? ? ? E|? ? ? ? ? ? ? ? ? ? E|? ? ? ? ? ? ? ? ? E|? ? ? ? ? ? ? ? ? E|? ? ? ? ? ? ? ? E];
    rewrite E in Q; try (destruct esc; exact Q); try exact Q.
  destruct esc; [exact Q|]. destruct hp; exact Q.
Qed.

Lemma keeps_trans f g h : keeps f g -> keeps g h -> keeps f h.
Proof.
  unfold keeps. intros (A1 & A2 & A3 & A4) (B1 & B2 & B3 & B4).
  rewrite A1 in B3. repeat split; congruence.
Qed.

Lemma keeps_refl f : keeps f f.
Proof. unfold keeps. auto. Qed.

Lemma u64_range x : is_u64 (u64 x).
Proof. unfold is_u64, u64. apply Z.mod_pos_bound. lia. Qed.
Local Hint Resolve u64_range : core.

Lemma act_total a d f f' : act a d f = Some f' -> total f' = total f \/ total f' = 1.
Proof.
  destruct a; cbn [act]; intros E; try (injection E as <-; auto; fail).
  all: unfold act_fletcher, act_kermit, act_length, act_payload, act_sequence, act_terminate in E.
  all: try (match type of E with context[store ?d ?g] => destruct (store d g) as [g1|] eqn:S; [|discriminate] end;
      assert (total g1 = total f) as <- by (unfold store in S; destruct (limit f <=? 0); [discriminate|];
        destruct (here f); try discriminate;
        match type of S with context[put ?a ?b ?c] => destruct (put a b c); [|discriminate] end;
        injection S as <-; reflexivity)).
  all: repeat match type of E with
    | context[if ?b then _ else _] => destruct b
    | context[match put ?a ?b ?c with _ => _ end] => destruct (put a b c)
    end; try discriminate; injection E as <-; auto.
Qed.

Lemma machine_total f c f' : machine f (Some c) = Some f' -> is_u64 (total f').
Proof.
  intros E. unfold machine in E. destruct (transition _ _ _ _) as [[[s a] d] th].
  apply act_total in E. fsall. destruct E as [-> | ->]; [auto|]. unfold is_u64. lia.
Qed.

Lemma step_quiescent f c :
  shape f -> quiescent (st f) ->
  exists f', machine f (Some c) = Some f' /\ shape f' /\ keeps f f' /\ keeps_received f f' /\
    ((st f' = st f /\ (st f <> RESET \/ c <> FLAG_T)) \/
     (st f = RESET /\ c = FLAG_T /\ body f' false [] [] /\ total f' = 1)) /\
    throttle f' = flow c (throttle f).
Proof.
  intros Hs Q.
  assert (T : transition (st f) (limit f) c (throttle f) =
     if (match st f with RESET => true | _ => false end) && (c =? FLAG_T)
     then (FLAG, A_RESET, c, throttle f) else (st f, CONSUME, c, flow c (throttle f))).
  { destruct (st f); try contradiction; reflexivity. }
  destruct (_ && _) eqn:E.
  - apply andb_prop in E. destruct E as [E1 E2]. apply Z.eqb_eq in E2. subst c.
    assert (st f = RESET) by (destruct (st f); try discriminate; reflexivity).
    rewrite (machine_some _ _ _ _ _ _ T). eexists. split; [reflexivity|].
    pose proof (act_reset_ok f (throttle f) (u64 (total f + 1)) Hs) as (K1 & K2 & K3 & K4 & K5 & K6).
    split; [exact K1|]. split; [exact K2|]. split; [exact K3|]. split; [|exact K6].
    right. auto.
  - rewrite (machine_some _ _ _ _ _ _ T). eexists. split; [reflexivity|].
    pose proof (keeps_refl_set f (st f) (flow c (throttle f)) (u64 (total f + 1)) Hs) as (K1 & K2 & K3).
    split; [exact K1|]. split; [exact K2|]. split; [exact K3|]. split; [|reflexivity].
    left. split; [reflexivity|].
    apply andb_false_iff in E. destruct E as [E|E].
    + left. intros X. rewrite X in E. discriminate.
    + right. apply Z.eqb_neq. exact E.
Qed.

Lemma failed_quiescent s : failed s -> quiescent s.
Proof. unfold failed. intros [-> | [-> | [-> | ->]]]; exact I. Qed.

Lemma step_inv f t : inv f -> token_ok t ->
  exists f', machine f t = Some f' /\ inv f' /\ keeps f f'.
Proof.
  intros (Hs & Hq & Ht) Hc. destruct t as [c|].
  - destruct Hq as [Q|(esc & hp & k & B)].
    + destruct (step_quiescent f c Hs Q) as (f' & M & S' & K & _ & D & _).
      exists f'. split; [exact M|]. split; [|exact K]. split; [exact S'|].
      split; [|eapply machine_total; exact M].
      destruct D as [[D _]|(_ & _ & D & _)]; [left; rewrite D; exact Q|right].
      exists false, [], []. exact D.
    + destruct (step_body f esc hp k c Hs Hc B) as (f' & M & S' & K & D).
      exists f'. split; [exact M|]. split; [|exact K]. split; [exact S'|].
      split; [|eapply machine_total; exact M].
      destruct D as [[_ R]|(_ & _ & R)].
      * destruct R; try (right; do 3 eexists; eassumption).
        left. apply failed_quiescent. assumption.
      * left. destruct R. match goal with H : st f' = COMPLETE |- _ => rewrite H end. exact I.
  - exists (set_st FINAL f). destruct (throttle f) eqn:E.
    + split; [unfold machine; fs; rewrite E; destruct f; fsall; rewrite E; reflexivity|].
      unfold inv, shape, keeps in *. fs. cbn [quiescent]. tauto.
    + split; [unfold machine; fs; rewrite E; destruct f; fsall; rewrite E; reflexivity|].
      unfold inv, shape, keeps in *. fs. cbn [quiescent]. tauto.
Qed.

Lemma reset_inv f : inv f -> inv (reset f).
Proof. unfold inv, shape. fs. cbn [quiescent]. tauto. Qed.

Lemma set_inv f mem sz : inv f -> 0 <= sz <= Z.of_nat (length mem) -> inv (set mem sz f).
Proof. unfold inv, shape. fs. cbn [quiescent]. tauto. Qed.

Lemma init_inv mem sz : 0 <= sz <= Z.of_nat (length mem) -> inv (init mem sz).
Proof.
  intros. unfold init. apply set_inv; [|assumption].
  unfold inv, shape, initializer, is_u64. fs. cbn. lia.
Qed.

Lemma run_inv ops : forall f, inv f -> Forall op_ok ops -> exists f', run f ops = Some f' /\ inv f'.
Proof.
  induction ops as [|o r IH]; intros f Hi Ho; [exists f; auto|].
  apply Forall_cons_iff in Ho. destruct Ho as [H1 H2]. cbn [run]. destruct o as [t| |mem sz]; cbn [apply_op op_ok] in *.
  - destruct (step_inv f t Hi H1) as (f' & -> & Hi' & _). apply IH; assumption.
  - apply IH; [apply reset_inv|]; assumption.
  - apply IH; [apply set_inv|]; assumption.
Qed.

Lemma feed_inv ts : forall f, inv f -> Forall token_ok ts ->
  exists f', feed f ts = Some f' /\ inv f' /\ keeps f f'.
Proof.
  induction ts as [|t r IH]; intros f Hi Ho; [exists f; auto using keeps_refl|].
  apply Forall_cons_iff in Ho. destruct Ho as [H1 H2]. cbn [feed].
  destruct (step_inv f t Hi H1) as (f' & -> & Hi' & K).
  destruct (IH f' Hi' H2) as (f'' & E & Hi'' & K'). exists f''.
  split; [exact E|]. split; [exact Hi''|]. eapply keeps_trans; eassumption.
Qed.

(** Tokens and resets between two armings never touch memory past the size. *)
Definition no_set (o : op) : Prop := match o with OSet _ _ => False | _ => True end.

Lemma run_keeps ops : forall f f', inv f -> Forall op_ok ops -> Forall no_set ops ->
  run f ops = Some f' -> keeps f f'.
Proof.
  induction ops as [|o r IH]; intros f f' Hi Ho Hn E; [injection E as <-; apply keeps_refl|].
  apply Forall_cons_iff in Ho. destruct Ho as [H1 H2].
  apply Forall_cons_iff in Hn. destruct Hn as [H3 H4].
  cbn [run] in E. destruct o as [t| |mem sz]; cbn [apply_op op_ok no_set] in *; [| |contradiction].
  - destruct (step_inv f t Hi H1) as (g & Eg & Hi' & K). rewrite Eg in E.
    eapply keeps_trans; [exact K|]. apply IH; assumption.
  - apply (IH (reset f)); auto using reset_inv.
Qed.

(** * Frames that are accepted are valid (C04) *)

Lemma encodes_app w1 d1 w2 d2 : encodes w1 d1 -> encodes w2 d2 -> encodes (w1 ++ w2) (d1 ++ d2).
Proof. induction 1; intros; cbn [app]; [assumption|constructor; auto|constructor; auto]. Qed.

Lemma encodes_snoc w d esc c : encodes w d -> ~ reserved c ->
  encodes (w ++ (if esc : bool then [0x7d] else []) ++ [c]) (d ++ [unmask esc c]).
Proof.
  intros H Hc. apply encodes_app; [assumption|].
  destruct esc; cbn [app unmask]; [apply encodes_escaped|apply encodes_plain]; auto; constructor.
Qed.

(** The history relation: either nothing is being received, or some body
    description matches the octets seen. *)
Definition hist (f : framer) (oct : list Z) : Prop :=
  quiescent (st f) \/
  exists esc hp k pre w, body f esc hp k /\
    oct = pre ++ 0x7e :: w ++ k ++ (if esc : bool then [0x7d] else []) /\ encodes w hp.

Lemma data_octets_app a b : data_octets (a ++ b) = data_octets a ++ data_octets b.
Proof.
  induction a as [|[c|] a IH]; cbn [app data_octets]; [reflexivity| |exact IH].
  destruct (_ || _); [exact IH|]. cbn [app]. rewrite IH. reflexivity.
Qed.

Lemma data_octets_flow c : flow_octet c -> data_octets [Some c] = [].
Proof. intros [-> | ->]; reflexivity. Qed.

Lemma data_octets_data c : ~ flow_octet c -> data_octets [Some c] = [c].
Proof.
  intros H. cbn [data_octets]. destruct (_ || _) eqn:E; [|reflexivity].
  exfalso. apply H. apply orb_prop in E. unfold flow_octet. rewrite !Z.eqb_eq in E. exact E.
Qed.

Lemma hist_step f oct t f' :
  shape f -> hist f oct -> token_ok t -> machine f t = Some f' ->
  hist f' (oct ++ data_octets [t]).
Proof.
  intros Hs H Ht M. destruct t as [c|].
  - destruct H as [Q|(esc & hp & k & pre & w & B & E & W)].
    + destruct (step_quiescent f c Hs Q) as (g & M' & _ & _ & _ & D & _).
      rewrite M in M'. injection M' as <-. destruct D as [[D _]|(_ & -> & B & _)].
      * left. rewrite D. exact Q.
      * right. exists false, [], [], oct, []. split; [exact B|]. split; [reflexivity|constructor].
    + destruct (step_body f esc hp k c Hs Ht B) as (g & M' & _ & _ & D).
      rewrite M in M'. injection M' as <-. destruct D as [[_ R]|(_ & _ & R)].
      * destruct R.
        -- right. exists esc, hp, k, pre, w. rewrite data_octets_flow, app_nil_r by assumption. auto.
        -- subst c. right. exists false, [], [], oct, []. split; [assumption|]. split; [reflexivity|constructor].
        -- subst c esc k. right. exists true, hp, [], pre, w. split; [assumption|]. split; [|assumption].
           rewrite E. cbn [app data_octets]. rewrite !app_nil_r. rewrite <- app_assoc. reflexivity.
        -- right. subst k. exists false, (hp ++ [unmask esc c]), [], pre, (w ++ (if esc then [0x7d] else []) ++ [c]).
           split; [assumption|]. split; [|apply encodes_snoc; assumption].
           rewrite E, data_octets_data by (intros X; apply H; right; right; right; exact X).
           cbn [app]. rewrite !app_nil_r. rewrite <- !app_assoc. cbn [app]. rewrite <- !app_assoc. reflexivity.
        -- right. subst esc. exists false, hp, (k ++ [c]), pre, w.
           split; [assumption|]. split; [|assumption].
           rewrite E, data_octets_data by (intros X; apply H; right; right; right; exact X).
           rewrite !app_nil_r. rewrite <- !app_assoc. cbn [app]. rewrite <- !app_assoc. reflexivity.
        -- left. apply failed_quiescent. assumption.
      * left. destruct R. match goal with H : st f' = COMPLETE |- _ => rewrite H end. exact I.
  - left. unfold machine in M. fsall. unfold transition in M. injection M as <-. exact I.
Qed.

Lemma hist_feed ts : forall f oct f', inv f -> hist f oct -> Forall token_ok ts ->
  feed f ts = Some f' -> hist f' (oct ++ data_octets ts).
Proof.
  induction ts as [|t r IH]; intros f oct f' Hi H Ho E.
  - injection E as <-. cbn [data_octets]. rewrite app_nil_r. exact H.
  - apply Forall_cons_iff in Ho. destruct Ho as [H1 H2]. cbn [feed] in E.
    destruct (step_inv f t Hi H1) as (g & Eg & Hi' & _). rewrite Eg in E.
    change (t :: r) with ([t] ++ r). rewrite data_octets_app, app_assoc.
    apply IH with g; try assumption.
    eapply hist_step; try eassumption. apply Hi.
Qed.

Lemma accepted_valid f0 ts f1 t f2 :
  inv f0 -> st f0 = RESET -> Forall token_ok ts -> token_ok t ->
  feed f0 ts = Some f1 -> st f1 <> COMPLETE -> machine f1 t = Some f2 -> st f2 = COMPLETE ->
  exists pre frame,
    data_octets (ts ++ [t]) = pre ++ frame /\
    valid_frame frame (firstn (Z.to_nat (length_ f2)) (buffer f2)) (sequence f2) /\
    0 <= length_ f2 <= size f0 /\
    length_ f2 = Z.of_nat (length (firstn (Z.to_nat (length_ f2)) (buffer f2))) /\
    previous f2 = sequence f1.
Proof.
  intros Hi Hr Hts Ht E N M C.
  destruct (feed_inv ts f0 Hi Hts) as (g & Eg & Hi1 & K). rewrite E in Eg. injection Eg as <-.
  assert (H : hist f1 (data_octets ts)).
  { change (data_octets ts) with ([] ++ data_octets ts). apply (hist_feed ts f0); auto.
    left. rewrite Hr. exact I. }
  assert (Hs : shape f1) by apply Hi1.
  destruct t as [c|].
  2:{ unfold machine in M. fsall. unfold transition in M. injection M as <-. discriminate. }
  destruct H as [Q|(esc & hp & k & pre & w & B & Eo & W)].
  - destruct (step_quiescent f1 c Hs Q) as (g & M' & _ & _ & _ & D & _).
    rewrite M in M'. injection M' as <-. destruct D as [[D _]|(_ & _ & B & _)]; [congruence|].
    exfalso. apply (body_not_quiescent _ _ _ _ B). rewrite C. exact I.
  - destruct (step_body f1 esc hp k c Hs Ht B) as (g & M' & _ & _ & D).
    rewrite M in M'. injection M' as <-. destruct D as [[_ R]|(-> & -> & R)].
    + exfalso. destruct R; try (eapply body_not_quiescent; [eassumption|rewrite C; exact I]).
      rewrite C in H. unfold failed in H. intuition discriminate.
    + destruct R as [sq p A1 A2 A3 A4 A5 A6 A7 A8 A9 A10 A11 A12 A13].
      rewrite A9, Nat2Z.id, A8.
      exists pre, ([0x7e] ++ w ++ trailer p ++ [0x0a]).
      split; [|split; [|split; [|split]]]; auto.
      * rewrite data_octets_app, Eo, A6. cbn [app data_octets]. rewrite app_nil_r.
        rewrite <- !app_assoc. cbn [app]. rewrite <- !app_assoc. reflexivity.
      * rewrite A10. split; [assumption|]. split; [assumption|]. split; [assumption|].
        exists w. split; [reflexivity|]. rewrite <- A5. exact W.
      * destruct K as (K1 & _). rewrite K1 in A4. lia.
Qed.

(** * Valid frames are accepted (C01, C05) *)

(** A run of tokens all of whose states are inside a frame. *)
Inductive inside : framer -> list Z -> framer -> Prop :=
| in_nil f : inside f [] f
| in_cons f c g w f' : machine f (Some c) = Some g -> live g -> inside g w f' -> inside f (c :: w) f'.

Lemma inside_app f w1 g w2 h : inside f w1 g -> inside g w2 h -> inside f (w1 ++ w2) h.
Proof. induction 1; intros; cbn [app]; [assumption|econstructor; eauto]. Qed.

Lemma inside_feed f w f' rest : inside f w f' -> feed f (tokens w ++ rest) = feed f' rest.
Proof. induction 1; cbn [tokens map app feed]; [reflexivity|]. rewrite H. exact IHinside. Qed.

Lemma reader_step_live f t f' : machine f t = Some f' -> live f' -> reader_step f t = Some (f', 0).
Proof.
  intros M (esc & hp & k & B). unfold reader_step. rewrite M.
  pose proof (body_not_quiescent _ _ _ _ B) as N.
  destruct (st f'); try reflexivity; exfalso; apply N; exact I.
Qed.

Lemma inside_reader f w f' rest : inside f w f' -> reader f (tokens w ++ rest) = reader f' rest.
Proof.
  induction 1; cbn [tokens map app reader]; [reflexivity|].
  rewrite (reader_step_live _ _ _ H H0). exact IHinside.
Qed.

(** Facts carried along a run inside a frame. *)
Definition carried (f f' : framer) (n : nat) : Prop :=
  shape f' /\ keeps f f' /\ keeps_received f f' /\ total f' = u64 (total f + Z.of_nat n) /\
  throttle f' = throttle f.

Lemma carried_trans f g h n m : carried f g n -> carried g h m -> carried f h (n + m).
Proof.
  unfold carried. intros (A1 & A2 & A3 & A4 & A5) (B1 & B2 & B3 & B4 & B5).
  split; [assumption|]. split; [eapply keeps_trans; eassumption|].
  split; [unfold keeps_received in *; intuition congruence|]. split; [|congruence].
  rewrite B4, A4. unfold u64. rewrite Zplus_mod_idemp_l. f_equal. lia.
Qed.

Lemma data_step f esc hp c :
  shape f -> is_u8 c -> ~ reserved c -> body f esc hp [] ->
  fits (size f) (hp ++ [unmask esc c]) [] ->
  exists f', machine f (Some c) = Some f' /\ body f' false (hp ++ [unmask esc c]) [] /\ carried f f' 1.
Proof.
  intros Hs Hc Hr B F. destruct (step_body f esc hp [] c Hs Hc B) as (f' & M & S' & K & D).
  exists f'. split; [exact M|]. destruct D as [[KR R]|(-> & _)]; [|exfalso; apply Hr; left; reflexivity].
  destruct R.
  - exfalso. apply Hr. right. right. right. assumption.
  - exfalso. apply Hr. right. right. left. assumption.
  - exfalso. apply Hr. right. left. assumption.
  - split; [assumption|]. unfold carried. auto.
  - exfalso. destruct F as (len & seq & p & r1 & r2 & F1 & F2 & F3 & F4 & F5 & _).
    destruct H2 as (len' & seq' & p' & G1 & G2 & G3 & ->).
    rewrite <- !app_assoc in F5. apply header_inj in F5. destruct F5 as (-> & -> & E).
    rewrite <- E in F3. rewrite !app_length in F3. cbn [length] in F3. lia.
  - exfalso. destruct H0 as [-> | [[_ X] | [[-> _] | (_ & X & _)]]].
    + apply Hr. left. reflexivity.
    + contradiction.
    + apply Hr. right. left. reflexivity.
    + apply X. auto.
Qed.

Lemma esc_step f hp d :
  shape f -> body f false hp [] -> fits (size f) (hp ++ [d]) [] ->
  exists f', machine f (Some 0x7d) = Some f' /\ body f' true hp [] /\ carried f f' 1.
Proof.
  intros Hs B F. destruct (step_body f false hp [] 0x7d Hs ltac:(unfold is_u8; lia) B) as (f' & M & S' & K & D).
  exists f'. split; [exact M|]. destruct D as [[KR R]|(X & _)]; [|discriminate].
  destruct R; try discriminate.
  - destruct H; discriminate.
  - split; [assumption|]. unfold carried. auto.
  - exfalso. apply H. right. left. reflexivity.
  - exfalso. apply H. right. left. reflexivity.
  - exfalso. destruct H0 as [X | [[X _] | [[_ X] | (X & _)]]]; try discriminate.
    + destruct F as (len & seq & p & r1 & r2 & F1 & F2 & F3 & F4 & F5 & _).
      destruct X as (len' & seq' & p' & G1 & G2 & ->).
      rewrite <- !app_assoc in F5. apply header_inj in F5. destruct F5 as (-> & -> & E).
      rewrite <- E in F3. rewrite !app_length in F3. cbn [length] in F3. lia.
    + apply X. right. left. reflexivity.
Qed.

Lemma fits_prefix sz hp a b : fits sz (hp ++ a ++ b) [] -> fits sz (hp ++ a) [].
Proof.
  intros (len & seq & p & r1 & r2 & F1 & F2 & F3 & F4 & F5 & F6 & F7).
  exists len, seq, p, (b ++ r1), r2. repeat (split; [assumption|]).
  split; [rewrite <- F5, !app_assoc; reflexivity|]. auto.
Qed.

Lemma carried_refl f : shape f -> is_u64 (total f) -> carried f f 0.
Proof.
  intros Hs Ht. unfold carried, keeps_received. split; [assumption|]. split; [apply keeps_refl|].
  split; [auto|]. split; [|reflexivity]. unfold u64, is_u64 in *. rewrite Z.mod_small; lia.
Qed.

Lemma carried_u64 f g n : carried f g n -> is_u64 (total g).
Proof. intros (_ & _ & _ & -> & _). apply u64_range. Qed.

Lemma body_live f esc hp k : body f esc hp k -> live f.
Proof. intros. exists esc, hp, k. assumption. Qed.

Lemma carried_size f g n : carried f g n -> size g = size f.
Proof. intros (_ & (K & _) & _). exact K. Qed.

Lemma carried_shape f g n : carried f g n -> shape g.
Proof. intros (K & _). exact K. Qed.

Lemma data_run w d : encodes w d -> forall f hp,
  octets w -> shape f -> is_u64 (total f) -> body f false hp [] -> fits (size f) (hp ++ d) [] ->
  exists f', inside f w f' /\ body f' false (hp ++ d) [] /\ carried f f' (length w).
Proof.
  induction 1 as [|c w d Hc W IH|c w d Hc W IH]; intros f hp Ho Hs Ht B F.
  - exists f. rewrite app_nil_r. split; [constructor|]. split; [assumption|].
    apply carried_refl; assumption.
  - apply Forall_cons_iff in Ho. destruct Ho as [Hc8 Ho].
    destruct (data_step f false hp c Hs Hc8 Hc B) as (g & M & Bg & Cg).
    { change (c :: d) with ([c] ++ d) in F. apply fits_prefix in F. exact F. }
    cbn [unmask] in *.
    destruct (IH g (hp ++ [c])) as (f' & I' & B' & C'); auto.
    + eapply carried_shape; eassumption.
    + eapply carried_u64; eassumption.
    + rewrite (carried_size _ _ _ Cg). rewrite <- app_assoc. exact F.
    + exists f'. split; [econstructor; eauto using body_live|].
      rewrite <- app_assoc in B'. split; [exact B'|].
      exact (carried_trans _ _ _ _ _ Cg C').
  - apply Forall_cons_iff in Ho. destruct Ho as [_ Ho].
    apply Forall_cons_iff in Ho. destruct Ho as [Hc8 Ho].
    assert (F1 : fits (size f) (hp ++ [Z.lxor c 32]) []).
    { change (Z.lxor c 32 :: d) with ([Z.lxor c 32] ++ d) in F. apply fits_prefix in F. exact F. }
    destruct (esc_step f hp _ Hs B F1) as (e & Me & Be & Ce).
    destruct (data_step e true hp c) as (g & M & Bg & Cg); auto.
    { eapply carried_shape; eassumption. }
    { rewrite (carried_size _ _ _ Ce). exact F1. }
    cbn [unmask] in *.
    destruct (IH g (hp ++ [Z.lxor c 32])) as (f' & I' & B' & C'); auto.
    + eapply carried_shape; eassumption.
    + eapply carried_u64; eassumption.
    + rewrite (carried_size _ _ _ Cg), (carried_size _ _ _ Ce). rewrite <- app_assoc. exact F.
    + exists f'. split; [econstructor; [exact Me|eauto using body_live|]; econstructor; eauto using body_live|].
      rewrite <- app_assoc in B'. split; [exact B'|].
      exact (carried_trans _ _ _ _ _ Ce (carried_trans _ _ _ _ _ Cg C')).
Qed.

Lemma body_bound f esc hp k : body f esc hp k ->
  forall len seq p, hp = header len seq ++ p -> Z.of_nat (length p) <= len.
Proof.
  intros B len seq p E.
  destruct B as [esc hp H1 H2|esc lb sb H1 H2 H3 H4|esc lb sb fl H1 H2 H3 H4 H5 H6
                |esc len' seq' p' H1 H2 H3 H4|len' seq' p' k H1 H2 H3 H4|len' seq' p' H1 H2 H3 H4].
  - subst hp. rewrite app_length, header_length in H2. lia.
  - apply (f_equal (@length Z)) in E. rewrite !app_length, header_length in E. lia.
  - apply (f_equal (@length Z)) in E. rewrite !app_length, header_length in E. lia.
  - apply header_inj in E. destruct E as (-> & -> & ->). lia.
  - apply header_inj in E. destruct E as (-> & -> & ->). lia.
  - apply header_inj in E. destruct E as (-> & -> & ->). lia.
Qed.

Lemma body_trailer f esc hp k : body f esc hp k ->
  forall len seq p, hp = header len seq ++ p -> k = trailer p ->
  octets p /\ len <= size f /\ st f = NEWLINE /\ length0 f = len /\ sequence0 f = seq /\
  firstn (length p) (buffer f) = p.
Proof.
  intros B len seq p E X.
  destruct B as [esc hp H1 H2|esc lb sb H1 H2 H3 H4|esc lb sb fl H1 H2 H3 H4 H5 H6
                |esc len' seq' p' H1 H2 H3 H4|len' seq' p' k H1 H2 H3 H4 H5 H6 H7 H8|len' seq' p' H1 H2 H3 H4];
    try discriminate.
  - subst k. rewrite trailer_length in H8. lia.
  - apply header_inj in E. destruct E as (-> & -> & ->). auto 10.
Qed.

Lemma check_step f len seq p k c r :
  shape f -> is_u8 c -> ~ reserved c -> is_u16 len -> is_u16 seq ->
  Z.of_nat (length p) = len -> len <= size f ->
  body f false (header len seq ++ p) k -> k ++ c :: r = trailer p ->
  exists f', machine f (Some c) = Some f' /\ body f' false (header len seq ++ p) (k ++ [c]) /\ carried f f' 1.
Proof.
  intros Hs Hc Hr Hlen Hseq Hl Hsz B T.
  assert (F : fits (size f) (header len seq ++ p) (k ++ [c])).
  { exists len, seq, p, [], r. repeat (split; [assumption|]). split; [apply app_nil_r|].
    split; [rewrite <- app_assoc; exact T|auto]. }
  destruct (step_body f false _ k c Hs Hc B) as (f' & M & S' & K & D).
  exists f'. split; [exact M|]. destruct D as [[KR R]|(-> & _)]; [|exfalso; apply Hr; left; reflexivity].
  destruct R.
  - exfalso. apply Hr. right. right. right. assumption.
  - exfalso. apply Hr. right. right. left. assumption.
  - exfalso. apply Hr. right. left. assumption.
  - (* a data octet cannot follow a complete payload *)
    exfalso. rewrite <- app_assoc in H1.
    pose proof (body_bound _ _ _ _ H1 _ _ _ eq_refl) as X.
    rewrite app_length in X. cbn [length] in X. lia.
  - split; [assumption|]. unfold carried. auto.
  - exfalso. destruct H0 as [-> | [[_ X] | [[-> _] | (_ & _ & X)]]].
    + apply Hr. left. reflexivity.
    + contradiction.
    + apply Hr. right. left. reflexivity.
    + apply X. auto.
Qed.

Lemma newline_step f len seq p :
  shape f -> is_u16 len -> is_u16 seq -> Z.of_nat (length p) = len ->
  body f false (header len seq ++ p) (trailer p) ->
  exists f', machine f (Some 0x0a) = Some f' /\ shape f' /\ keeps f f' /\
     st f' = COMPLETE /\ firstn (length p) (buffer f') = p /\ length_ f' = len /\
     sequence f' = seq /\ previous f' = sequence f /\ total f' = u64 (total f + 1) /\
     throttle f' = throttle f.
Proof.
  intros Hs Hlen Hseq Hl B.
  destruct (body_trailer _ _ _ _ B _ _ _ eq_refl eq_refl) as (L3 & L5 & L6 & L7 & L8 & L9).
  {
    destruct (step_newline f len seq p 0x0a Hs ltac:(unfold is_u8; lia) Hlen Hseq L3 Hl L5 L6 L7 L8 L9)
      as (f' & M & S' & K & D).
    exists f'. split; [exact M|]. split; [exact S'|]. split; [exact K|].
    destruct D as [[_ R]|(_ & _ & R)].
    + exfalso. unfold machine in M. revert M. fs. rewrite L6. cbn. unfold act_terminate. fs. intros M.
      assert (C : st f' = COMPLETE).
      { destruct (length0 f <? size f); [destruct (put _ _ _); [|discriminate]|]; injection M as <-; reflexivity. }
      destruct R; try (eapply body_not_quiescent; [eassumption|rewrite C; exact I]).
      rewrite C in H. unfold failed in H. intuition discriminate.
    + destruct R as [sq q A1 A2 A3 A4 A5 A6 A7 A8 A9 A10 A11 A12 A13].
      apply header_inj in A5. destruct A5 as (E1 & -> & <-).
      repeat (split; [congruence|]). assumption.
  }
Qed.

Lemma flag_step f :
  shape f -> st f = RESET \/ (exists hp k, body f false hp k) ->
  exists f', machine f (Some 0x7e) = Some f' /\ shape f' /\ keeps f f' /\ keeps_received f f' /\
    body f' false [] [] /\ (total f' = 1 \/ (st f = FLAG /\ total f' = u64 (total f + 1))) /\
    throttle f' = throttle f.
Proof.
  intros Hs [R|(hp & k & B)].
  - destruct (step_quiescent f 0x7e Hs) as (f' & M & S' & K & KR & D & T); [rewrite R; exact I|].
    exists f'. destruct D as [[_ [X|X]]|(_ & _ & B & Tt)]; [congruence|exfalso; apply X; reflexivity|].
    repeat (split; [solve [auto]|]). exact T.
  - destruct (step_body f false hp k 0x7e Hs ltac:(unfold is_u8; lia) B) as (f' & M & S' & K & D).
    exists f'. destruct D as [[KR R]|(X & _)]; [|discriminate].
    destruct R; try discriminate.
    + destruct H; discriminate.
    + repeat (split; [solve [auto]|]). assumption.
    + exfalso. apply H. right. right. left. reflexivity.
    + exfalso. apply H. right. right. left. reflexivity.
    + exfalso. destruct H0 as [X | [[X _] | [[X _] | (X & _)]]]; try discriminate.
      apply X. right. right. left. reflexivity.
Qed.

Lemma encodes_octets w d : encodes w d -> octets d -> octets w.
Proof.
  induction 1 as [|c w d Hc W IH|c w d Hc W IH]; intros Ho; [assumption| |];
    apply Forall_cons_iff in Ho; destruct Ho as [H1 H2].
  - constructor; [assumption|apply IH; assumption].
  - constructor; [unfold is_u8; lia|]. constructor; [|apply IH; assumption].
    replace c with (Z.lxor (Z.lxor c 32) 32).
    + apply is_u8_lxor32. exact H1.
    + rewrite Z.lxor_assoc, Z.lxor_nilpotent, Z.lxor_0_r. reflexivity.
Qed.

(** A valid frame is received from the armed state, or from any state inside a
    frame where no escape is pending. *)
Lemma frame_received f wire payload seq :
  shape f -> is_u64 (total f) -> st f = RESET \/ (exists hp k, body f false hp k) ->
  valid_frame wire payload seq -> Z.of_nat (length payload) <= size f ->
  exists body_ g f', wire = body_ ++ [0x0a] /\ inside f body_ g /\
    machine g (Some 0x0a) = Some f' /\ shape f' /\ keeps f f' /\
    st f' = COMPLETE /\ firstn (length payload) (buffer f') = payload /\
    length_ f' = Z.of_nat (length payload) /\ sequence f' = seq /\ previous f' = sequence f /\
    (st f <> FLAG -> total f' = Z.of_nat (length wire) mod 18446744073709551616) /\
    (st f = FLAG -> total f' = u64 (total f + Z.of_nat (length wire)) \/ total f' = u64 (Z.of_nat (length wire))) /\
    throttle f' = throttle f.
Proof.
  intros Hs Ht Hst (V1 & V2 & V3 & w & -> & W) Hsz.
  set (len := Z.of_nat (length payload)) in *.
  assert (Hlen : is_u16 len) by (unfold is_u16; lia).
  destruct (flag_step f Hs Hst) as (f1 & M1 & S1 & K1 & KR1 & B1 & T1 & Th1).
  assert (Ho : octets w).
  { eapply encodes_octets; [exact W|]. apply Forall_app. split; [apply header_octets; assumption|assumption]. }
  destruct (data_run w _ W f1 [] Ho S1) as (f2 & I2 & B2 & C2).
  { destruct T1 as [-> | [_ ->]]; [unfold is_u64; lia|auto]. }
  { exact B1. }
  { exists len, seq, payload, [], (trailer payload). destruct K1 as (Ks & _). rewrite Ks.
    split; [assumption|]. split; [assumption|]. split; [reflexivity|]. split; [assumption|].
    split; [apply app_nil_r|]. auto. }
  cbn [app] in B2.
  assert (Sz2 : size f2 = size f) by (rewrite (carried_size _ _ _ C2); apply K1).
  destruct (trailer_chars payload V1) as (k0 & k1 & k2 & Et & Ec & N0 & N1 & N2).
  assert (RR : is_u16 (crc_string payload 0)) by (apply crc_string_range; auto; unfold is_u16; lia).
  destruct (crc2chars_valid _ _ _ _ RR Ec) as (_ & _ & _ & Q0 & Q1 & Q2).
  destruct (check_step f2 len seq payload [] k0 [k1; k2]) as (f3 & M3 & B3 & C3); auto;
    [apply C2|unfold is_u8; lia|lia|].
  destruct (check_step f3 len seq payload [k0] k1 [k2]) as (f4 & M4 & B4 & C4); auto;
    [apply C3|unfold is_u8; lia|rewrite (carried_size _ _ _ C3); lia|].
  destruct (check_step f4 len seq payload [k0; k1] k2 []) as (f5 & M5 & B5 & C5); auto;
    [apply C4|unfold is_u8; lia|rewrite (carried_size _ _ _ C4), (carried_size _ _ _ C3); lia|].
  cbn [app] in B5. rewrite <- Et in B5.
  destruct (newline_step f5 len seq payload) as (f6 & M6 & S6 & K6 & R1 & R2 & R3 & R4 & R5 & R6 & R7); auto;
    [apply C5|].
  pose proof (carried_trans _ _ _ _ _ C2 (carried_trans _ _ _ _ _ C3 (carried_trans _ _ _ _ _ C4 C5))) as C.
  exists ([0x7e] ++ w ++ trailer payload), f5, f6.
  split; [rewrite <- !app_assoc; reflexivity|].
  split.
  { cbn [app]. econstructor; [exact M1|eauto using body_live|].
    eapply inside_app; [exact I2|]. rewrite Et.
    econstructor; [exact M3|eauto using body_live|].
    econstructor; [exact M4|eauto using body_live|].
    econstructor; [exact M5|eauto using body_live|constructor]. }
  split; [exact M6|]. split; [exact S6|].
  destruct C as (D1 & D2 & D3 & D4 & D5).
  split; [eapply keeps_trans; [exact K1|eapply keeps_trans; eassumption]|].
  split; [exact R1|]. split; [exact R2|]. split; [exact R3|]. split; [exact R4|].
  split; [rewrite R5; destruct D3 as (-> & _); apply KR1|].
  rewrite R6, D4. rewrite !app_length, trailer_length. cbn [length].
  assert (E : forall t, u64 (u64 (t + Z.of_nat (length w + (1 + (1 + 1)))) + 1) = u64 (t + Z.of_nat (length w + 4))).
  { intros t. unfold u64. rewrite Zplus_mod_idemp_l. f_equal. lia. }
  rewrite E. split; [|split].
  - intros NF. destruct T1 as [-> | [X _]]; [|contradiction]. unfold u64. f_equal. lia.
  - intros _. destruct T1 as [-> | [_ ->]].
    + right. f_equal. lia.
    + left. unfold u64. rewrite Zplus_mod_idemp_l. f_equal. lia.
  - congruence.
Qed.
