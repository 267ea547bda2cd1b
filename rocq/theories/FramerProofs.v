From Coq Require Import ZArith List Bool Lia Arith.
From Verif Require Import CInt ChecksumModel ChecksumSpec ChecksumProofs FramerModel FramerSpec.
Import ListNotations.
Local Open Scope Z_scope.

(** * Tactics *)

Ltac fs := cbn [buffer here off size limit total st length0b length0 length_
  sequence0b sequence0 sequence previous generated crc crc0 fa fb sum check throttle
  set_buffer set_here set_size set_total set_st set_length0b set_length0 set_sequence0b
  set_sequence0 set_received set_generated set_crc set_crc0 set_ab set_sum set_check
  set_throttle reset set act fst snd].

Ltac fsall := cbn [buffer here off size limit total st length0b length0 length_
  sequence0b sequence0 sequence previous generated crc crc0 fa fb sum check throttle
  set_buffer set_here set_size set_total set_st set_length0b set_length0 set_sequence0b
  set_sequence0 set_received set_generated set_crc set_crc0 set_ab set_sum set_check
  set_throttle reset set act fst snd] in *.

(** * Lists *)

Lemma put_some l i x : (i < length l)%nat ->
  exists l', put l i x = Some l' /\ length l' = length l /\
             firstn (S i) l' = firstn i l ++ [x] /\
             firstn i l' = firstn i l /\
             skipn (S i) l' = skipn (S i) l.
Proof.
  intros H. unfold put. apply Nat.ltb_lt in H as H'. rewrite H'.
  exists (firstn i l ++ x :: skipn (S i) l).
  assert (L : length (firstn i l) = i) by (rewrite firstn_length; lia).
  split; [reflexivity|]. split; [|split; [|split]].
  - rewrite app_length, L. cbn [length]. rewrite skipn_length. lia.
  - rewrite firstn_app, L. replace (S i - i)%nat with 1%nat by lia.
    rewrite firstn_all2 by lia. reflexivity.
  - rewrite firstn_app, L. replace (i - i)%nat with 0%nat by lia.
    rewrite firstn_all2 by lia. apply app_nil_r.
  - rewrite skipn_app, L. replace (S i - i)%nat with 1%nat by lia.
    rewrite skipn_all2 by lia. reflexivity.
Qed.

Lemma skipn_skipn_add {A} i : forall j (l : list A), skipn i (skipn j l) = skipn (j + i) l.
Proof.
  intros j. induction j as [|j IH]; intros l; [reflexivity|].
  destruct l; cbn [skipn Nat.add]; [apply skipn_nil|apply IH].
Qed.

Lemma skipn_more {A} (l l' : list A) i j : (i <= j)%nat -> skipn i l = skipn i l' -> skipn j l = skipn j l'.
Proof.
  intros H E. replace j with (i + (j - i))%nat by lia. rewrite <- !skipn_skipn_add, E. reflexivity.
Qed.

(** * Octet classes *)

Lemma token_cases c :
  (c = 0x0a \/ c = 0x7e \/ c = 0x7d \/ c = 0x11 \/ c = 0x13) \/
  (~ reserved c /\ (c =? NEWLINE_T) = false /\ (c =? FLAG_T) = false /\ (c =? ESCAPE) = false /\
   (c =? XON) = false /\ (c =? XOFF) = false).
Proof.
  unfold reserved, flow_octet, NEWLINE_T, FLAG_T, ESCAPE, XON, XOFF.
  rewrite !Z.eqb_neq. lia.
Qed.

Lemma not_reserved_eqb c : ~ reserved c ->
  (c =? NEWLINE_T) = false /\ (c =? FLAG_T) = false /\ (c =? ESCAPE) = false /\
   (c =? XON) = false /\ (c =? XOFF) = false.
Proof.
  unfold reserved, flow_octet, NEWLINE_T, FLAG_T, ESCAPE, XON, XOFF.
  rewrite !Z.eqb_neq. lia.
Qed.

(** * Header and trailer *)

Lemma be16_ntohs x y : is_u8 x -> is_u8 y -> big_endian (ntohs [x; y]) = [x; y].
Proof.
  unfold is_u8, big_endian, ntohs. cbn [nth]. intros Hx Hy. f_equal; [|f_equal].
  - symmetry. apply Z.div_unique with y; lia.
  - symmetry. apply Z.mod_unique with x; lia.
Qed.

Lemma ntohs_be16 x : ntohs (big_endian x) = x.
Proof. unfold ntohs, big_endian. cbn [nth]. pose proof (Z.div_mod x 256). lia. Qed.

Lemma ntohs_range x y : is_u8 x -> is_u8 y -> is_u16 (ntohs [x; y]).
Proof. unfold is_u8, is_u16, ntohs. cbn [nth]. lia. Qed.

Lemma big_endian_octets x : is_u16 x -> octets (big_endian x).
Proof.
  unfold is_u16, big_endian. intros H. constructor; [|constructor; [|constructor]]; unfold is_u8.
  - split; [apply Z.div_pos; lia | apply Z.div_lt_upper_bound; lia].
  - apply Z.mod_pos_bound. lia.
Qed.

Lemma header_length len seq : length (header len seq) = 6%nat.
Proof. reflexivity. Qed.

Lemma header_octets len seq : is_u16 len -> is_u16 seq -> octets (header len seq).
Proof.
  intros. unfold header. apply Forall_app. split.
  - apply Forall_app. split; apply big_endian_octets; assumption.
  - constructor; [|constructor; [|constructor]]; unfold is_u8;
    match goal with |- context[?x mod 255] => pose proof (Z.mod_pos_bound x 255 ltac:(lia)) end; lia.
Qed.

Lemma header_inj len seq p len' seq' p' :
  header len seq ++ p = header len' seq' ++ p' -> len = len' /\ seq = seq' /\ p = p'.
Proof.
  unfold header, big_endian. cbn [app]. intros E.
  injection E as E1 E2 E3 E4 _ _ E5.
  split; [|split; [|exact E5]].
  - rewrite (Z.div_mod len 256), (Z.div_mod len' 256) by lia. lia.
  - rewrite (Z.div_mod seq 256), (Z.div_mod seq' 256) by lia. lia.
Qed.

Lemma fletcher_header h : octets h -> h <> [] ->
  fletcher_16 h 0 0 = (ChecksumSpec.sum h mod 255, weighted h mod 255).
Proof.
  intros. rewrite fletcher_16_spec by (try assumption; unfold is_u8; lia).
  f_equal; f_equal; lia.
Qed.

Lemma trailer_chars p : octets p ->
  exists k0 k1 k2, trailer p = [k0; k1; k2] /\ crc2chars (crc_string p 0) = (k0, k1, k2) /\
  ~ reserved k0 /\ ~ reserved k1 /\ ~ reserved k2.
Proof.
  intros Hp. assert (R : is_u16 (crc_string p 0)) by (apply crc_string_range; [assumption|unfold is_u16; lia]).
  destruct (crc2chars (crc_string p 0)) as [[k0 k1] k2] eqn:E.
  pose proof (crc2chars_valid _ _ _ _ R E) as (_ & _ & _ & ? & ? & ?).
  rewrite crc2chars_arith in E by assumption.
  exists k0, k1, k2. split; [|split; [reflexivity|]].
  - unfold trailer. injection E as <- <- <-. f_equal; [lia|f_equal; [lia|f_equal; lia]].
  - unfold reserved, flow_octet. lia.
Qed.

Lemma crc2chars_inj_trailer p k0 k1 k2 : octets p ->
  firstisvalid k0 = true -> secondisvalid k1 = true -> thirdisvalid k2 = true ->
  chars2crc k0 k1 k2 = crc_string p 0 -> [k0; k1; k2] = trailer p.
Proof.
  intros Hp V0 V1 V2 E. destruct (chars_round_trip k0 k1 k2 V0 V1 V2) as [_ T].
  rewrite E in T. destruct (trailer_chars p Hp) as (a & b & c & -> & E2 & _).
  rewrite T in E2. congruence.
Qed.

(** * Invariant *)

Definition shape (f : framer) : Prop :=
  length (length0b f) = 2%nat /\ length (sequence0b f) = 2%nat /\
  length (sum f) = 2%nat /\ length (check f) = 3%nat /\
  0 <= size f <= Z.of_nat (length (buffer f)).

Inductive body (f : framer) : bool -> list Z -> list Z -> Prop :=
| b_length (esc : bool) hp :
    octets hp -> (length hp < 2)%nat ->
    st f = (if esc then LENGTH_ESCAPED else match hp with [] => FLAG | _ => LENGTH end) ->
    here f = RLength -> off f = length hp -> limit f = 2 - Z.of_nat (length hp) ->
    firstn (length hp) (length0b f) = hp -> crc f = 0 ->
    body f esc hp []
| b_sequence (esc : bool) lb sb :
    octets lb -> octets sb -> length lb = 2%nat -> (length sb < 2)%nat ->
    st f = (if esc then SEQUENCE_ESCAPED else SEQUENCE) ->
    here f = RSequence -> off f = length sb -> limit f = 2 - Z.of_nat (length sb) ->
    length0b f = lb -> firstn (length sb) (sequence0b f) = sb ->
    (fa f, fb f) = fletcher_16 lb 0 0 -> crc f = 0 ->
    body f esc (lb ++ sb) []
| b_fletcher (esc : bool) lb sb fl :
    octets lb -> octets sb -> octets fl ->
    length lb = 2%nat -> length sb = 2%nat -> (length fl < 2)%nat ->
    st f = (if esc then FLETCHER_ESCAPED else FLETCHER) ->
    here f = RSum -> off f = length fl -> limit f = 2 - Z.of_nat (length fl) ->
    length0b f = lb -> sequence0b f = sb -> firstn (length fl) (sum f) = fl ->
    (fa f, fb f) = fletcher_16 (lb ++ sb) 0 0 -> crc f = 0 ->
    body f esc (lb ++ sb ++ fl) []
| b_payload (esc : bool) len seq p :
    is_u16 len -> is_u16 seq -> octets p -> Z.of_nat (length p) < len -> len <= size f ->
    st f = (if esc then PAYLOAD_ESCAPED else PAYLOAD) ->
    here f = RBuffer -> off f = length p -> limit f = len - Z.of_nat (length p) ->
    length0 f = len -> sequence0 f = seq -> firstn (length p) (buffer f) = p ->
    body f esc (header len seq ++ p) []
| b_kermit len seq p k :
    is_u16 len -> is_u16 seq -> octets p -> Z.of_nat (length p) = len -> len <= size f ->
    st f = KERMIT -> octets k -> (length k < 3)%nat ->
    here f = RCheck -> off f = length k -> limit f = 3 - Z.of_nat (length k) ->
    length0 f = len -> sequence0 f = seq -> firstn (length p) (buffer f) = p ->
    firstn (length k) (check f) = k -> crc f = crc_string p 0 ->
    body f false (header len seq ++ p) k
| b_newline len seq p :
    is_u16 len -> is_u16 seq -> octets p -> Z.of_nat (length p) = len -> len <= size f ->
    st f = NEWLINE ->
    length0 f = len -> sequence0 f = seq -> firstn (length p) (buffer f) = p ->
    body f false (header len seq ++ p) (trailer p).

(** The parts of the object a reception in progress does not touch. *)
Definition keeps (f f' : framer) : Prop :=
  size f' = size f /\ length (buffer f') = length (buffer f) /\
  skipn (Z.to_nat (size f)) (buffer f') = skipn (Z.to_nat (size f)) (buffer f) /\
  generated f' = generated f.

Definition keeps_received (f f' : framer) : Prop :=
  sequence f' = sequence f /\ previous f' = previous f /\ length_ f' = length_ f.

Definition failed (s : state) : Prop := s = ABORT \/ s = FAILED \/ s = OVERFLOW \/ s = INVALID.

(** [fits sz hp k]: what was received so far can still become a frame. *)
Definition fits (sz : Z) (hp k : list Z) : Prop :=
  exists len seq p r1 r2,
    is_u16 len /\ is_u16 seq /\ Z.of_nat (length p) = len /\ len <= sz /\
    hp ++ r1 = header len seq ++ p /\ k ++ r2 = trailer p /\ (k = [] \/ r1 = []).

Definition unmask (esc : bool) (c : Z) : Z := if esc then Z.lxor c 0x20 else c.

Inductive res (f : framer) (esc : bool) (hp k : list Z) (c : Z) (f' : framer) : Prop :=
| r_flow : flow_octet c -> body f' esc hp k -> total f' = u64 (total f + 1) ->
    throttle f' = (c =? XOFF) -> res f esc hp k c f'
| r_flag : c = FLAG_T -> esc = false -> body f' false [] [] ->
    total f' = 1 \/ (st f = FLAG /\ total f' = u64 (total f + 1)) ->
    throttle f' = throttle f -> res f esc hp k c f'
| r_esc : c = ESCAPE -> esc = false -> k = [] -> body f' true hp [] ->
    total f' = u64 (total f + 1) -> throttle f' = throttle f -> res f esc hp k c f'
| r_data : ~ reserved c -> k = [] -> body f' false (hp ++ [unmask esc c]) [] ->
    total f' = u64 (total f + 1) -> throttle f' = throttle f -> res f esc hp k c f'
| r_check : ~ reserved c -> esc = false -> body f' false hp (k ++ [c]) ->
    (exists len seq p, is_u16 len /\ is_u16 seq /\ Z.of_nat (length p) = len /\ hp = header len seq ++ p) ->
    total f' = u64 (total f + 1) -> throttle f' = throttle f -> res f esc hp k c f'
| r_fail : failed (st f') ->
    (c = NEWLINE_T \/ (esc = true /\ reserved c) \/
     (c = ESCAPE /\ exists len seq p, is_u16 len /\ Z.of_nat (length p) = len /\ hp = header len seq ++ p) \/
     (~ reserved c /\ ~ (k = [] /\ fits (size f) (hp ++ [unmask esc c]) []) /\
      ~ (esc = false /\ fits (size f) hp (k ++ [c])))) ->
    throttle f' = throttle f -> res f esc hp k c f'.

Inductive done (f : framer) (hp k : list Z) (f' : framer) : Prop :=
| d_done seq p :
    is_u16 seq -> octets p -> Z.of_nat (length p) <= 65535 -> Z.of_nat (length p) <= size f ->
    hp = header (Z.of_nat (length p)) seq ++ p -> k = trailer p ->
    st f' = COMPLETE -> firstn (length p) (buffer f') = p ->
    length_ f' = Z.of_nat (length p) -> sequence f' = seq -> previous f' = sequence f ->
    total f' = u64 (total f + 1) -> throttle f' = throttle f ->
    done f hp k f'.

Ltac inv H := inversion H; subst; clear H.

Definition stepped (f : framer) (esc : bool) (hp k : list Z) (c : Z) : Prop :=
  exists f', machine f (Some c) = Some f' /\ shape f' /\ keeps f f' /\
    ((keeps_received f f' /\ res f esc hp k c f') \/
     (c = NEWLINE_T /\ esc = false /\ done f hp k f')).

Lemma is_u8_lxor32 c : is_u8 c -> is_u8 (Z.lxor c 32).
Proof.
  unfold is_u8. intros H.
  assert (0 <= Z.lxor c 32) by (apply Z.lxor_nonneg; lia).
  split; [assumption|].
  destruct (Z.eq_dec (Z.lxor c 32) 0) as [->|]; [lia|].
  change 256 with (2 ^ 8). apply Z.log2_lt_pow2; [lia|].
  eapply Z.le_lt_trans; [apply Z.log2_lxor; lia|]. apply Z.max_lub_lt; [|cbn; lia].
  destruct (Z.eq_dec c 0) as [->|]; [cbn; lia|]. apply Z.log2_lt_pow2; lia.
Qed.

Lemma unmask_u8 esc c : is_u8 c -> is_u8 (unmask esc c).
Proof. intros. destruct esc; [apply is_u8_lxor32|]; assumption. Qed.

Lemma octets_snoc l c : octets l -> is_u8 c -> octets (l ++ [c]).
Proof. intros. apply Forall_app. split; [assumption|constructor; [assumption|constructor]]. Qed.

Lemma octets0 : octets [].
Proof. constructor. Qed.
Lemma octets1 a : is_u8 a -> octets [a].
Proof. intros; constructor; [assumption|constructor]. Qed.
Lemma octets2 a b : is_u8 a -> is_u8 b -> octets [a; b].
Proof. intros; constructor; [assumption|apply octets1; assumption]. Qed.
Ltac octs := unfold octets in *; repeat match goal with H : Forall is_u8 (_ :: _) |- _ =>
  apply Forall_cons_iff in H; destruct H end.
Local Hint Resolve octets0 octets1 octets2 octets_snoc : core.

Lemma machine_some f c s a d th :
  transition (st f) (limit f) c (throttle f) = (s, a, d, th) ->
  machine f (Some c) = act a d (set_throttle th (set_st s (set_total (u64 (total f + 1)) f))).
Proof. intros E. unfold machine. fs. rewrite E. reflexivity. Qed.

(** * The body of a field state, token by token *)

Lemma keeps_refl_set f s th t :
  shape f -> let f' := set_throttle th (set_st s (set_total t f)) in
  shape f' /\ keeps f f' /\ keeps_received f f'.
Proof.
  intros H f'. unfold f', shape, keeps, keeps_received in *. fs. tauto.
Qed.

Lemma act_reset_ok f th t :
  shape f -> let f' := act_reset (set_throttle th (set_st FLAG (set_total t f))) in
  shape f' /\ keeps f f' /\ keeps_received f f' /\ body f' false [] [] /\ total f' = 1 /\ throttle f' = th.
Proof.
  intros H f'. unfold f', act_reset. unfold shape, keeps, keeps_received in *. fs.
  repeat (split; try tauto). apply b_length; try reflexivity; [constructor|cbn; lia].
Qed.

(** Steps common to all states. *)
Lemma stepped_fail f esc hp k c s :
  shape f -> transition (st f) (limit f) c (throttle f) = (s, CONSUME, c, throttle f) -> failed s ->
  (c = NEWLINE_T \/ (esc = true /\ reserved c) \/
     (c = ESCAPE /\ exists len seq p, is_u16 len /\ Z.of_nat (length p) = len /\ hp = header len seq ++ p) \/
     (~ reserved c /\ ~ (k = [] /\ fits (size f) (hp ++ [unmask esc c]) []) /\
      ~ (esc = false /\ fits (size f) hp (k ++ [c])))) ->
  stepped f esc hp k c.
Proof.
  intros Hs T Hf R. unfold stepped. rewrite (machine_some _ _ _ _ _ _ T). fs.
  eexists. split; [reflexivity|].
  pose proof (keeps_refl_set f s (throttle f) (u64 (total f + 1)) Hs) as (K1 & K2 & K3).
  split; [exact K1|]. split; [exact K2|]. left. split; [exact K3|].
  apply r_fail; fs; auto.
Qed.

Lemma stepped_flow f esc hp k c :
  shape f -> transition (st f) (limit f) c (throttle f) = (st f, CONSUME, c, c =? XOFF) ->
  flow_octet c ->
  (forall th t, body (set_throttle th (set_st (st f) (set_total t f))) esc hp k) ->
  stepped f esc hp k c.
Proof.
  intros Hs T Hf B. unfold stepped. rewrite (machine_some _ _ _ _ _ _ T). fs.
  eexists. split; [reflexivity|].
  pose proof (keeps_refl_set f (st f) (c =? XOFF) (u64 (total f + 1)) Hs) as (K1 & K2 & K3).
  split; [exact K1|]. split; [exact K2|]. left. split; [exact K3|].
  apply r_flow; fs; auto.
Qed.

Lemma stepped_flag f hp k :
  shape f -> transition (st f) (limit f) FLAG_T (throttle f) = (FLAG, A_RESET, FLAG_T, throttle f) ->
  stepped f false hp k FLAG_T.
Proof.
  intros Hs T. unfold stepped. rewrite (machine_some _ _ _ _ _ _ T).
  change (act A_RESET FLAG_T ?g) with (Some (act_reset g)).
  eexists. split; [reflexivity|].
  pose proof (act_reset_ok f (throttle f) (u64 (total f + 1)) Hs) as (K1 & K2 & K3 & K4 & K5 & K6).
  split; [exact K1|]. split; [exact K2|]. left. split; [exact K3|].
  apply r_flag; auto.
Qed.

Lemma stepped_esc f hp s :
  shape f -> transition (st f) (limit f) ESCAPE (throttle f) = (s, CONSUME, ESCAPE, throttle f) ->
  (forall th t, body (set_throttle th (set_st s (set_total t f))) true hp []) ->
  stepped f false hp [] ESCAPE.
Proof.
  intros Hs T B. unfold stepped. rewrite (machine_some _ _ _ _ _ _ T). fs.
  eexists. split; [reflexivity|].
  pose proof (keeps_refl_set f s (throttle f) (u64 (total f + 1)) Hs) as (K1 & K2 & K3).
  split; [exact K1|]. split; [exact K2|]. left. split; [exact K3|].
  apply r_esc; fs; auto.
Qed.

(** A field state with a reserved octet. *)
Lemma field_special f esc hp c self plain next a0 :
  shape f ->
  st f = (if esc : bool then self else plain) ->
  (forall lim ch th, transition self lim ch th = on_escaped self plain a0 next lim ch th) ->
  (esc = false -> forall lim ch th, transition plain lim ch th = on_field plain self a0 next lim ch th) ->
  (forall th t, body (set_throttle th (set_st (st f) (set_total t f))) esc hp []) ->
  (esc = false -> forall th t, body (set_throttle th (set_st self (set_total t f))) true hp []) ->
  reserved c -> stepped f esc hp [] c.
Proof.
  intros Hs Hst T1 T2 B1 B2 Hc. pose proof Hc as Hr.
  destruct esc.
  - destruct Hc as [->|[->|[->|Hf]]].
    + apply stepped_fail with INVALID; [auto| rewrite Hst, T1; reflexivity | unfold failed; auto | auto].
    + apply stepped_fail with INVALID; [auto| rewrite Hst, T1; reflexivity | unfold failed; auto | auto].
    + apply stepped_fail with ABORT; [auto| rewrite Hst, T1; reflexivity | unfold failed; auto | auto].
    + apply stepped_flow; auto. rewrite Hst, T1. destruct Hf as [-> | ->]; reflexivity.
  - specialize (T2 eq_refl). destruct Hc as [->|[->|[->|Hf]]].
    + apply stepped_fail with INVALID; [auto| rewrite Hst, T2; reflexivity | unfold failed; auto | auto].
    + apply stepped_esc with self; [auto | rewrite Hst, T2; reflexivity | auto].
    + apply stepped_flag; [auto|]. rewrite Hst, T2. reflexivity.
    + apply stepped_flow; auto. rewrite Hst, T2. destruct Hf as [-> | ->]; reflexivity.
Qed.

Lemma transition_field_data f (esc : bool) c self plain next a0 :
  st f = (if esc then self else plain) ->
  (forall lim ch th, transition self lim ch th = on_escaped self plain a0 next lim ch th) ->
  (esc = false -> forall lim ch th, transition plain lim ch th = on_field plain self a0 next lim ch th) ->
  ~ reserved c ->
  transition (st f) (limit f) c (throttle f) =
  if 1 <? limit f then (plain, STORE, unmask esc c, throttle f)
  else (next, a0, unmask esc c, throttle f).
Proof.
  intros Hst T1 T2 Hr. destruct (not_reserved_eqb c Hr) as (E1 & E2 & E3 & E4 & E5).
  rewrite Hst. destruct esc.
  - rewrite T1. unfold on_escaped. rewrite E1, E2, E3, E4, E5. reflexivity.
  - rewrite T2 by reflexivity. unfold on_field. rewrite E1, E2, E3, E4, E5. reflexivity.
Qed.

Ltac destr_put := match goal with |- context[put ?l ?i ?x] =>
  let H := fresh in
  pose proof (put_some l i x) as H;
  destruct H as (l' & -> & PL & PS & PF & PK); [try lia|] end.

(** * Length *)

Lemma step_length f esc hp c :
  shape f -> is_u8 c ->
  octets hp -> (length hp < 2)%nat ->
  st f = (if esc : bool then LENGTH_ESCAPED else match hp with [] => FLAG | _ => LENGTH end) ->
  here f = RLength -> off f = length hp -> limit f = 2 - Z.of_nat (length hp) ->
  firstn (length hp) (length0b f) = hp -> crc f = 0 ->
  stepped f esc hp [] c.
Proof.
  intros Hs Hc Ho Hl Hst Hh Hoff Hlim Hpre Hcrc.
  assert (B : forall th t, body (set_throttle th (set_st (st f) (set_total t f))) esc hp []).
  { intros. apply b_length; fs; auto. }
  assert (B2 : forall th t, body (set_throttle th (set_st LENGTH_ESCAPED (set_total t f))) true hp []).
  { intros. apply b_length; fs; auto. }
  destruct (token_cases c) as [R|(Hr & E1 & E2 & E3 & E4 & E5)].
  - assert (Hr : reserved c) by (unfold reserved, flow_octet; tauto).
    destruct esc, hp as [|h0 hp'];
      try (eapply field_special with (self := LENGTH_ESCAPED) (plain := LENGTH);
           eauto; intros; reflexivity).
    (* FLAG state *)
    clear R. destruct Hr as [->|[->|[->|Hf]]].
    + apply stepped_fail with INVALID; [auto| rewrite Hst; reflexivity | unfold failed; auto | auto].
    + apply stepped_esc with LENGTH_ESCAPED; [auto | rewrite Hst; reflexivity | auto].
    + unfold stepped. rewrite (machine_some f 0x7e FLAG CONSUME 0x7e (throttle f)) by (rewrite Hst; reflexivity).
      fs. eexists. split; [reflexivity|].
      pose proof (keeps_refl_set f FLAG (throttle f) (u64 (total f + 1)) Hs) as (K1 & K2 & K3).
      split; [exact K1|]. split; [exact K2|]. left. split; [exact K3|].
      apply r_flag; fs; auto. specialize (B (throttle f) (u64 (total f + 1))). rewrite Hst in B. exact B.
    + apply stepped_flow; auto. rewrite Hst. destruct Hf as [-> | ->]; reflexivity.
  - assert (T : transition (st f) (limit f) c (throttle f) =
      if 1 <? limit f then (LENGTH, STORE, unmask esc c, throttle f)
      else (SEQUENCE, A_LENGTH, unmask esc c, throttle f)).
    { destruct esc, hp as [|h0 hp'];
        try (eapply transition_field_data with (self := LENGTH_ESCAPED); eauto; intros; reflexivity).
      rewrite Hst. unfold transition, on_flag. rewrite E1, E2, E3, E4, E5.
      rewrite Hlim. reflexivity. }
    pose proof (unmask_u8 esc c Hc) as Hu. unfold shape in Hs. destruct Hs as (S1 & S2 & S3 & S4 & S5).
    destruct hp as [|h0 [|]]; [| |cbn in Hl; lia].
    + (* first octet *)
      rewrite Hlim in T at 2. cbn [length] in T. change (1 <? 2 - Z.of_nat 0) with true in T. cbn iota in T.
      unfold stepped. rewrite (machine_some _ _ _ _ _ _ T). fs. unfold store. fs.
      rewrite Hlim, Hh, Hoff. cbn [length]. change (2 - Z.of_nat 0 <=? 0) with false. cbn iota.
      destr_put. eexists. split; [reflexivity|]. unfold shape, keeps, keeps_received. fs.
      repeat (split; [auto; lia|]). left. split; [auto|].
      apply r_data; fs; auto. cbn [app].
      apply b_length; fs; auto; cbn [length]; lia.
    + rewrite Hlim in T at 2. cbn [length] in T. change (1 <? 2 - Z.of_nat 1) with false in T. cbn iota in T.
      unfold stepped. rewrite (machine_some _ _ _ _ _ _ T). fs. unfold act_length, store. fs.
      rewrite Hlim, Hh, Hoff. cbn [length]. change (2 - Z.of_nat 1 <=? 0) with false. cbn iota.
      destr_put. eexists. split; [reflexivity|]. unfold shape, keeps, keeps_received. fs.
      repeat (split; [auto; lia|]). left. split; [auto|].
      assert (El : l' = [h0; unmask esc c]).
      { rewrite S1 in PL. rewrite <- (firstn_all l'), PL, PS. cbn [length] in Hpre. rewrite Hpre. reflexivity. }
      apply r_data; fs; auto. cbn [app].
      change [h0; unmask esc c] with ([h0; unmask esc c] ++ []).
      apply b_sequence; fs; auto; cbn [length]; try lia.
      * inv Ho. auto.
      * rewrite El. destruct (fletcher_16 [h0; unmask esc c] 0 0). reflexivity.
Qed.

(** * Sequence *)

Lemma step_sequence f esc lb sb c :
  shape f -> is_u8 c ->
  octets lb -> octets sb -> length lb = 2%nat -> (length sb < 2)%nat ->
  st f = (if esc : bool then SEQUENCE_ESCAPED else SEQUENCE) ->
  here f = RSequence -> off f = length sb -> limit f = 2 - Z.of_nat (length sb) ->
  length0b f = lb -> firstn (length sb) (sequence0b f) = sb ->
  (fa f, fb f) = fletcher_16 lb 0 0 -> crc f = 0 ->
  stepped f esc (lb ++ sb) [] c.
Proof.
  intros Hs Hc Hlb Hsb Hll Hl Hst Hh Hoff Hlim Hlen Hpre Hab Hcrc.
  assert (B : forall th t, body (set_throttle th (set_st (st f) (set_total t f))) esc (lb ++ sb) []).
  { intros. apply b_sequence; fs; auto. }
  assert (B2 : forall th t, body (set_throttle th (set_st SEQUENCE_ESCAPED (set_total t f))) true (lb ++ sb) []).
  { intros. apply b_sequence; fs; auto. }
  destruct (token_cases c) as [R|(Hr & _)].
  - assert (Hr : reserved c) by (unfold reserved, flow_octet; tauto).
    eapply field_special with (self := SEQUENCE_ESCAPED) (plain := SEQUENCE); eauto; intros; reflexivity.
  - assert (T : transition (st f) (limit f) c (throttle f) =
      if 1 <? limit f then (SEQUENCE, STORE, unmask esc c, throttle f)
      else (FLETCHER, A_SEQUENCE, unmask esc c, throttle f)).
    { eapply transition_field_data with (self := SEQUENCE_ESCAPED); eauto; intros; reflexivity. }
    pose proof (unmask_u8 esc c Hc) as Hu. unfold shape in Hs. destruct Hs as (S1 & S2 & S3 & S4 & S5).
    destruct sb as [|h0 [|]]; [| |cbn in Hl; lia].
    + rewrite Hlim in T at 2. cbn [length] in T. change (1 <? 2 - Z.of_nat 0) with true in T. cbn iota in T.
      unfold stepped. rewrite (machine_some _ _ _ _ _ _ T). fs. unfold store. fs.
      rewrite Hlim, Hh, Hoff. cbn [length]. change (2 - Z.of_nat 0 <=? 0) with false. cbn iota.
      destr_put. eexists. split; [reflexivity|]. unfold shape, keeps, keeps_received. fs.
      repeat (split; [auto; lia|]). left. split; [auto|].
      apply r_data; fs; auto. rewrite <- app_assoc. cbn [app].
      apply b_sequence; fs; auto; cbn [length]; try lia.
    + rewrite Hlim in T at 2. cbn [length] in T. change (1 <? 2 - Z.of_nat 1) with false in T. cbn iota in T.
      unfold stepped. rewrite (machine_some _ _ _ _ _ _ T). fs. unfold act_sequence, store. fs.
      rewrite Hlim, Hh, Hoff. cbn [length]. change (2 - Z.of_nat 1 <=? 0) with false. cbn iota.
      destr_put. eexists. split; [reflexivity|]. unfold shape, keeps, keeps_received. fs.
      repeat (split; [auto; lia|]). left. split; [auto|].
      assert (El : l' = [h0; unmask esc c]).
      { rewrite S2 in PL. rewrite <- (firstn_all l'), PL, PS. cbn [length] in Hpre. rewrite Hpre. reflexivity. }
      apply r_data; fs; auto. rewrite <- app_assoc. cbn [app].
      replace (lb ++ [h0; unmask esc c]) with (lb ++ [h0; unmask esc c] ++ []) by reflexivity.
      inv Hsb.
      apply b_fletcher; fs; auto; cbn [length]; try lia.
      rewrite fletcher_16_app by (auto; unfold is_u8; lia).
      rewrite <- Hab. cbn [fst snd].
      destruct (fletcher_16 [h0; unmask esc c] (fa f) (fb f)). reflexivity.
Qed.

(** * Fletcher *)

Lemma header_received a b c d x y :
  octets [a; b] -> octets [c; d] ->
  (x, y) = fletcher_16 ([a; b] ++ [c; d]) 0 0 ->
  [a; b] ++ [c; d] ++ [x; y] = header (ntohs [a; b]) (ntohs [c; d]).
Proof.
  intros H1 H2 E. rewrite fletcher_header in E; [|apply Forall_app; auto|discriminate].
  octs. unfold header. rewrite !be16_ntohs by assumption.
  apply pair_equal_spec in E. destruct E as [-> ->]. reflexivity.
Qed.

Lemma step_fletcher f esc lb sb fl c :
  shape f -> is_u8 c ->
  octets lb -> octets sb -> octets fl ->
  length lb = 2%nat -> length sb = 2%nat -> (length fl < 2)%nat ->
  st f = (if esc : bool then FLETCHER_ESCAPED else FLETCHER) ->
  here f = RSum -> off f = length fl -> limit f = 2 - Z.of_nat (length fl) ->
  length0b f = lb -> sequence0b f = sb -> firstn (length fl) (sum f) = fl ->
  (fa f, fb f) = fletcher_16 (lb ++ sb) 0 0 -> crc f = 0 ->
  stepped f esc (lb ++ sb ++ fl) [] c.
Proof.
  intros Hs Hc Hlb Hsb Hfl Hll Hsl Hl Hst Hh Hoff Hlim Hlen Hseq Hpre Hab Hcrc.
  assert (B : forall th t, body (set_throttle th (set_st (st f) (set_total t f))) esc (lb ++ sb ++ fl) []).
  { intros. apply b_fletcher; fs; auto. }
  assert (B2 : forall th t, body (set_throttle th (set_st FLETCHER_ESCAPED (set_total t f))) true (lb ++ sb ++ fl) []).
  { intros. apply b_fletcher; fs; auto. }
  destruct (token_cases c) as [R|(Hr & _)].
  - assert (Hr : reserved c) by (unfold reserved, flow_octet; tauto).
    eapply field_special with (self := FLETCHER_ESCAPED) (plain := FLETCHER); eauto; intros; reflexivity.
  - assert (T : transition (st f) (limit f) c (throttle f) =
      if 1 <? limit f then (FLETCHER, STORE, unmask esc c, throttle f)
      else (PAYLOAD, A_FLETCHER, unmask esc c, throttle f)).
    { eapply transition_field_data with (self := FLETCHER_ESCAPED); eauto; intros; reflexivity. }
    pose proof (unmask_u8 esc c Hc) as Hu. unfold shape in Hs. destruct Hs as (S1 & S2 & S3 & S4 & S5).
    destruct fl as [|h0 [|]]; [| |cbn in Hl; lia].
    + rewrite Hlim in T at 2. cbn [length] in T. change (1 <? 2 - Z.of_nat 0) with true in T. cbn iota in T.
      unfold stepped. rewrite (machine_some _ _ _ _ _ _ T). fs. unfold store. fs.
      rewrite Hlim, Hh, Hoff. cbn [length]. change (2 - Z.of_nat 0 <=? 0) with false. cbn iota.
      destr_put. eexists. split; [reflexivity|]. unfold shape, keeps, keeps_received. fs.
      repeat (split; [auto; lia|]). left. split; [auto|].
      apply r_data; fs; auto. rewrite <- !app_assoc. cbn [app].
      apply b_fletcher; fs; auto; cbn [length]; try lia.
    + rewrite Hlim in T at 2. cbn [length] in T. change (1 <? 2 - Z.of_nat 1) with false in T. cbn iota in T.
      destruct lb as [|l0 [|l1 [|]]]; try discriminate. destruct sb as [|s0 [|s1 [|]]]; try discriminate.
      unfold stepped. rewrite (machine_some _ _ _ _ _ _ T). fs. unfold act_fletcher, store. fs.
      rewrite Hlim, Hh, Hoff. cbn [length]. change (2 - Z.of_nat 1 <=? 0) with false. cbn iota.
      destr_put. fs.
      assert (El : l' = [h0; unmask esc c]).
      { rewrite S3 in PL. rewrite <- (firstn_all l'), PL, PS. cbn [length] in Hpre. rewrite Hpre. reflexivity. }
      subst l'. cbn [nth]. rewrite Hlen, Hseq.
      assert (NT : is_u16 (ntohs [l0; l1])) by (octs; apply ntohs_range; assumption).
      assert (NS : is_u16 (ntohs [s0; s1])) by (octs; apply ntohs_range; assumption).
      assert (Hh0 : is_u8 h0) by (octs; assumption).
      destruct ((h0 =? fa f) && (unmask esc c =? fb f)) eqn:EQ.
      * apply andb_prop in EQ. destruct EQ as [EA EB]. rewrite EA, EB. cbn [negb orb].
        apply Z.eqb_eq in EA, EB. 
        assert (HH : [l0; l1] ++ [s0; s1] ++ [h0; unmask esc c] = header (ntohs [l0; l1]) (ntohs [s0; s1])).
        { apply header_received; auto. rewrite EA, EB. exact Hab. }
        set (len := ntohs [l0; l1]) in *. set (sq := ntohs [s0; s1]) in *.
        destruct (len =? 0) eqn:Z0; [|destruct (size f <? len) eqn:Z1].
        -- apply Z.eqb_eq in Z0. eexists. split; [reflexivity|]. unfold shape, keeps, keeps_received. fs.
           repeat (split; [auto; lia|]). left. split; [auto|].
           apply r_data; fs; auto.
           replace (([l0; l1] ++ [s0; s1] ++ [h0]) ++ [unmask esc c]) with (header len sq ++ [])
             by (rewrite <- HH; reflexivity).
           apply b_kermit; fs; auto; cbn [length]; try lia.
        -- apply Z.ltb_lt in Z1.
           eexists. split; [reflexivity|]. unfold shape, keeps, keeps_received. fs.
           repeat (split; [auto; lia|]). left. split; [auto|].
           apply r_fail; fs; [unfold failed; auto| |reflexivity].
           right. right. right. split; [assumption|].
           replace (([l0; l1] ++ [s0; s1] ++ [h0]) ++ [unmask esc c]) with (header len sq)
             by (rewrite <- HH; reflexivity).
           split.
           ++ intros [_ (len' & seq' & p & r1 & r2 & ? & ? & ? & ? & E & _)].
              apply header_inj in E. lia.
           ++ intros [-> (len' & seq' & p & r1 & r2 & ? & ? & ? & ? & E & _ & [X|X])]; [discriminate|].
              subst r1. rewrite app_nil_r in E.
              apply (f_equal (@length Z)) in E. rewrite !app_length, header_length in E. cbn [length] in E. lia.
        -- apply Z.eqb_neq in Z0. apply Z.ltb_ge in Z1.
           eexists. split; [reflexivity|]. unfold shape, keeps, keeps_received. fs.
           repeat (split; [auto; lia|]). left. split; [auto|].
           apply r_data; fs; auto.
           replace (([l0; l1] ++ [s0; s1] ++ [h0]) ++ [unmask esc c]) with (header len sq ++ [])
             by (rewrite <- HH; reflexivity).
           unfold is_u16 in NT.
           apply b_payload; fs; auto; cbn [length]; try lia.
      * assert (EN : negb (h0 =? fa f) || negb (unmask esc c =? fb f) = true)
          by (destruct (h0 =? fa f), (unmask esc c =? fb f); try discriminate; reflexivity).
        rewrite EN.
        eexists. split; [reflexivity|]. unfold shape, keeps, keeps_received. fs.
        repeat (split; [auto; lia|]). left. split; [auto|].
        apply r_fail; fs; [unfold failed; auto| |reflexivity].
        right. right. right. split; [assumption|].
        split.
        -- intros [_ (len' & seq' & p & r1 & r2 & ? & ? & ? & ? & E & _)].
           rewrite <- !app_assoc in E. cbn [app] in E. unfold header in E.
           unfold big_endian in E. cbn [app] in E.
           pose proof (f_equal (fun l => nth 0 l 0) E) as E1.
           pose proof (f_equal (fun l => nth 1 l 0) E) as E2.
           pose proof (f_equal (fun l => nth 2 l 0) E) as E3.
           pose proof (f_equal (fun l => nth 3 l 0) E) as E4.
           pose proof (f_equal (fun l => nth 4 l 0) E) as E5.
           pose proof (f_equal (fun l => nth 5 l 0) E) as E6.
           cbn [nth] in E1, E2, E3, E4, E5, E6. clear E.
           rewrite fletcher_header in Hab; [|apply Forall_app; auto|discriminate].
           cbn [app] in Hab.
           apply pair_equal_spec in Hab. destruct Hab as [Hfa Hfb]. subst l0 l1 s0 s1.
           rewrite <- Hfa in E5. rewrite <- Hfb in E6. subst h0. rewrite E6 in EQ.
           rewrite !Z.eqb_refl in EQ. discriminate.
        -- intros [-> (len' & seq' & p & r1 & r2 & ? & ? & ? & ? & E & _ & [X|X])]; [discriminate|].
           subst r1. rewrite app_nil_r in E.
           apply (f_equal (@length Z)) in E. rewrite !app_length, header_length in E. cbn [length] in E. lia.
Qed.

(** * Payload *)

Lemma step_payload f esc len seq p c :
  shape f -> is_u8 c ->
  is_u16 len -> is_u16 seq -> octets p -> Z.of_nat (length p) < len -> len <= size f ->
  st f = (if esc : bool then PAYLOAD_ESCAPED else PAYLOAD) ->
  here f = RBuffer -> off f = length p -> limit f = len - Z.of_nat (length p) ->
  length0 f = len -> sequence0 f = seq -> firstn (length p) (buffer f) = p ->
  stepped f esc (header len seq ++ p) [] c.
Proof.
  intros Hs Hc Hlen Hseq Hp Hl Hsz Hst Hh Hoff Hlim Hl0 Hs0 Hpre.
  assert (B : forall th t, body (set_throttle th (set_st (st f) (set_total t f))) esc (header len seq ++ p) []).
  { intros. apply b_payload; fs; auto. }
  assert (B2 : forall th t, body (set_throttle th (set_st PAYLOAD_ESCAPED (set_total t f))) true (header len seq ++ p) []).
  { intros. apply b_payload; fs; auto. }
  destruct (token_cases c) as [R|(Hr & _)].
  - assert (Hr : reserved c) by (unfold reserved, flow_octet; tauto).
    eapply field_special with (self := PAYLOAD_ESCAPED) (plain := PAYLOAD); eauto; intros; reflexivity.
  - assert (T : transition (st f) (limit f) c (throttle f) =
      if 1 <? limit f then (PAYLOAD, STORE, unmask esc c, throttle f)
      else (KERMIT, A_PAYLOAD, unmask esc c, throttle f)).
    { eapply transition_field_data with (self := PAYLOAD_ESCAPED); eauto; intros; reflexivity. }
    pose proof (unmask_u8 esc c Hc) as Hu. unfold shape in Hs. destruct Hs as (S1 & S2 & S3 & S4 & S5).
    unfold is_u16 in Hlen.
    destruct (1 <? limit f) eqn:EL.
    + apply Z.ltb_lt in EL.
      unfold stepped. rewrite (machine_some _ _ _ _ _ _ T). fs. unfold store. fs.
      rewrite Hh, Hoff. replace (limit f <=? 0) with false by (symmetry; apply Z.leb_gt; lia).
      destr_put. eexists. split; [reflexivity|]. unfold shape, keeps, keeps_received. fs.
      rewrite PL. repeat (split; [auto; lia|]).
      split; [repeat split; auto; apply skipn_more with (S (length p)); [lia|exact PK]|].
      left. split; [auto|].
      apply r_data; fs; auto. rewrite <- app_assoc.
      apply b_payload; fs; auto; rewrite ?app_length; cbn [length]; try lia.
      rewrite Nat.add_1_r, PS, Hpre. reflexivity.
    + apply Z.ltb_ge in EL.
      unfold stepped. rewrite (machine_some _ _ _ _ _ _ T). fs. unfold act_payload, store. fs.
      rewrite Hh, Hoff. replace (limit f <=? 0) with false by (symmetry; apply Z.leb_gt; lia).
      destr_put. fs. rewrite PL, Hl0.
      replace (Z.of_nat (length (buffer f)) <? len) with false by (symmetry; apply Z.ltb_ge; lia).
      eexists. split; [reflexivity|]. unfold shape, keeps, keeps_received. fs.
      rewrite PL. repeat (split; [auto; lia|]).
      split; [repeat split; auto; apply skipn_more with (S (length p)); [lia|exact PK]|].
      left. split; [auto|].
      assert (Hq : firstn (Z.to_nat len) l' = p ++ [unmask esc c]).
      { replace (Z.to_nat len) with (S (length p)) by lia. rewrite PS, Hpre. reflexivity. }
      apply r_data; fs; auto. rewrite <- app_assoc.
      apply b_kermit; fs; auto; rewrite ?app_length; cbn [length]; try lia.
      * replace (length p + 1)%nat with (Z.to_nat len) by lia. exact Hq.
      * rewrite Hq. apply kermit_16_spec; auto. unfold is_u16. lia.
Qed.

(** * Kermit *)

Lemma prefix_firstn {A} (k r l : list A) : k ++ r = l -> firstn (length k) l = k.
Proof. intros <-. rewrite firstn_app, Nat.sub_diag, firstn_all. apply app_nil_r. Qed.

Lemma step_kermit f len seq p k c :
  shape f -> is_u8 c ->
  is_u16 len -> is_u16 seq -> octets p -> Z.of_nat (length p) = len -> len <= size f ->
  st f = KERMIT -> octets k -> (length k < 3)%nat ->
  here f = RCheck -> off f = length k -> limit f = 3 - Z.of_nat (length k) ->
  length0 f = len -> sequence0 f = seq -> firstn (length p) (buffer f) = p ->
  firstn (length k) (check f) = k -> crc f = crc_string p 0 ->
  stepped f false (header len seq ++ p) k c.
Proof.
  intros Hs Hc Hlen Hseq Hp Hl Hsz Hst Hk Hkl Hh Hoff Hlim Hl0 Hs0 Hpre Hck Hcrc.
  assert (B : forall th t, body (set_throttle th (set_st (st f) (set_total t f))) false (header len seq ++ p) k).
  { intros. apply b_kermit; fs; auto. }
  destruct (token_cases c) as [R|(Hr & E1 & E2 & E3 & E4 & E5)].
  - assert (Hr : reserved c) by (unfold reserved, flow_octet; tauto).
    clear R. destruct Hr as [->|[->|[->|Hf]]].
    + apply stepped_fail with INVALID; [auto| rewrite Hst; reflexivity | unfold failed; auto | auto].
    + apply stepped_fail with INVALID; [auto| rewrite Hst; reflexivity | unfold failed; auto | ].
      right. right. left. split; [reflexivity|]. exists len, seq, p. auto.
    + apply stepped_flag; [auto|]. rewrite Hst. reflexivity.
    + apply stepped_flow; auto. rewrite Hst. destruct Hf as [-> | ->]; reflexivity.
  - pose proof (keeps_refl_set f KERMIT (throttle f) (u64 (total f + 1)) Hs) as _.
    unfold shape in Hs. destruct Hs as (S1 & S2 & S3 & S4 & S5).
    assert (T : transition (st f) (limit f) c (throttle f) =
       if limit f =? 3 then (KERMIT, STORE, c, throttle f)
       else if limit f =? 2 then (KERMIT, STORE, c, throttle f)
       else if limit f =? 1 then (NEWLINE, A_KERMIT, c, throttle f)
       else (INVALID, CONSUME, c, throttle f)).
    { rewrite Hst. unfold transition, on_kermit. rewrite E1, E2, E3, E4, E5. reflexivity. }
    destruct (le_lt_dec 2 (length k)) as [K2|K2].
    + assert (length k = 2%nat) by lia.
      destruct k as [|k0 [|k1 [|]]]; try discriminate.
      assert (T' : transition (st f) (limit f) c (throttle f) = (NEWLINE, A_KERMIT, c, throttle f))
        by (rewrite T, Hlim; reflexivity).
      unfold stepped. rewrite (machine_some _ _ _ _ _ _ T'). fs. unfold act_kermit, store. fs.
      rewrite Hh, Hoff, Hlim. cbn [length]. change (3 - Z.of_nat 2 <=? 0) with false. cbn iota.
      destr_put. fs.
      assert (El : l' = [k0; k1; c]).
      { rewrite S4 in PL. rewrite <- (firstn_all l'), PL, PS. cbn [length] in Hck. rewrite Hck. reflexivity. }
      subst l'. cbn [nth].
      assert (NF : (firstisvalid k0 && secondisvalid k1 && thirdisvalid c && (chars2crc k0 k1 c =? crc f) = false) ->
        exists f', Some (set_st FAILED f') = Some (set_st FAILED f') /\
        ~ (([k0; k1] = []) /\ fits (size f) ((header len seq ++ p) ++ [c]) []) /\
        ~ (false = false /\ fits (size f) (header len seq ++ p) ([k0; k1] ++ [c]))).
      { intros X. exists f. split; [reflexivity|]. split; [intros [? _]; discriminate|].
        intros [_ (len' & seq' & p' & r1 & r2 & ? & ? & ? & ? & E & F & [Y|Y])]; [discriminate|].
        subst r1. rewrite app_nil_r in E. apply header_inj in E. destruct E as (-> & -> & <-).
        destruct (trailer_chars p Hp) as (t0 & t1 & t2 & Et & Ec & _).
        rewrite Et in F. cbn [app] in F. injection F as <- <- <- _.
        assert (RR : is_u16 (crc_string p 0)) by (apply crc_string_range; auto; unfold is_u16; lia).
        destruct (crc2chars_valid _ _ _ _ RR Ec) as (V0 & V1 & V2 & _).
        rewrite V0, V1, V2, Hcrc in X. rewrite (crc_round_trip _ _ _ _ RR Ec), Z.eqb_refl in X. discriminate. }
      destruct (firstisvalid k0) eqn:V0; [destruct (secondisvalid k1) eqn:V1; [destruct (thirdisvalid c) eqn:V2;
        [destruct (chars2crc k0 k1 c =? crc f) eqn:V3|]|]|]; cbn [negb andb] in *; fs; rewrite ?V3; cbn [negb];
      eexists; (split; [reflexivity|]); unfold shape, keeps, keeps_received; fs;
        rewrite ?PL; (repeat (split; [auto; lia|])); left; (split; [auto|]);
      try (apply r_fail; fs; [unfold failed; auto| |reflexivity];
           right; right; right; split; [assumption|]; destruct (NF eq_refl) as (_ & _ & NF'); exact NF').
      apply Z.eqb_eq in V3. rewrite Hcrc in V3.
      apply r_check; fs; auto; [|exists len, seq, p; auto].
      rewrite (crc2chars_inj_trailer p k0 k1 c Hp V0 V1 V2 V3 : [k0; k1] ++ [c] = _).
      apply b_newline; fs; auto.
    + assert (T' : transition (st f) (limit f) c (throttle f) = (KERMIT, STORE, c, throttle f)).
      { rewrite T, Hlim. destruct k as [|k0 [|]]; [reflexivity|reflexivity|cbn in K2; lia]. }
      unfold stepped. rewrite (machine_some _ _ _ _ _ _ T'). fs. unfold store. fs.
      rewrite Hh, Hoff. replace (limit f <=? 0) with false by (symmetry; apply Z.leb_gt; lia).
      destr_put. eexists. split; [reflexivity|]. unfold shape, keeps, keeps_received. fs.
      rewrite ?PL. repeat (split; [auto; lia|]). left. split; [auto|].
      apply r_check; fs; auto; [|exists len, seq, p; auto].
      apply b_kermit; fs; auto; rewrite ?app_length; cbn [length]; try lia.
      rewrite Nat.add_1_r, PS, Hck. reflexivity.
Qed.

(** * Newline *)

Lemma trailer_length p : length (trailer p) = 3%nat.
Proof. reflexivity. Qed.

Lemma step_newline f len seq p c :
  shape f -> is_u8 c ->
  is_u16 len -> is_u16 seq -> octets p -> Z.of_nat (length p) = len -> len <= size f ->
  st f = NEWLINE ->
  length0 f = len -> sequence0 f = seq -> firstn (length p) (buffer f) = p ->
  stepped f false (header len seq ++ p) (trailer p) c.
Proof.
  intros Hs Hc Hlen Hseq Hp Hl Hsz Hst Hl0 Hs0 Hpre.
  assert (B : forall th t, body (set_throttle th (set_st (st f) (set_total t f))) false (header len seq ++ p) (trailer p)).
  { intros. apply b_newline; fs; auto. }
  destruct (token_cases c) as [R|(Hr & E1 & E2 & E3 & E4 & E5)].
  - assert (Hr : reserved c) by (unfold reserved, flow_octet; tauto).
    clear R. destruct Hr as [->|[->|[->|Hf]]].
    + unfold stepped. rewrite (machine_some f 0x0a COMPLETE TERMINATE 0x0a (throttle f)) by (rewrite Hst; reflexivity).
      fs. unfold act_terminate. fs. unfold shape in Hs. destruct Hs as (S1 & S2 & S3 & S4 & S5).
      rewrite Hl0, Hs0. unfold is_u16 in Hlen.
      destruct (len <? size f) eqn:EL.
      * apply Z.ltb_lt in EL. destr_put. eexists. split; [reflexivity|]. unfold shape, keeps. fs.
        rewrite PL. repeat (split; [auto; lia|]).
        split; [repeat split; auto; apply skipn_more with (S (Z.to_nat len)); [lia|exact PK]|].
        right. split; [reflexivity|]. split; [reflexivity|].
        apply d_done with seq p; fs; auto; try lia.
        -- rewrite Hl. reflexivity.
        -- replace (length p) with (Z.to_nat len) by lia. rewrite PF.
           replace (Z.to_nat len) with (length p) by lia. exact Hpre.
      * eexists. split; [reflexivity|]. unfold shape, keeps. fs.
        repeat (split; [auto; lia|]).
        right. split; [reflexivity|]. split; [reflexivity|].
        apply d_done with seq p; fs; auto; try lia.
        rewrite Hl. reflexivity.
    + apply stepped_fail with INVALID; [auto| rewrite Hst; reflexivity | unfold failed; auto | ].
      right. right. left. split; [reflexivity|]. exists len, seq, p. auto.
    + apply stepped_flag; [auto|]. rewrite Hst. reflexivity.
    + apply stepped_flow; auto. rewrite Hst. destruct Hf as [-> | ->]; reflexivity.
  - apply stepped_fail with INVALID;
      [auto| rewrite Hst; unfold transition, on_newline; rewrite E1, E2, E4, E5; reflexivity
       | unfold failed; auto | ].
    right. right. right. split; [assumption|]. split.
    + intros [X _]. discriminate.
    + intros [_ (len' & seq' & p' & r1 & r2 & ? & ? & ? & ? & E & F & _)].
      apply (f_equal (@length Z)) in F. rewrite !app_length, !trailer_length in F. cbn in F. lia.
Qed.

Theorem step_body f esc hp k c :
  shape f -> is_u8 c -> body f esc hp k -> stepped f esc hp k c.
Proof.
  intros Hs Hc Hb. destruct Hb.
  - apply step_length; assumption.
  - apply step_sequence; assumption.
  - apply step_fletcher; assumption.
  - apply step_payload; assumption.
  - apply step_kermit; assumption.
  - apply step_newline; assumption.
Qed.
