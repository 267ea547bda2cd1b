(** Proofs: from what is spelled to the endpoint. *)

From Coq Require Import ZArith List Bool Arith Lia Ascii String.
From Verif Require Import CInt CUtil IpModel IpSpec IpProofs EndpointModel EndpointSpec EndpointProofs EndpointProofs2.
Import ListNotations.
Local Open Scope Z_scope.

Lemma strncpy_last s : ~ In 0 s -> Z.of_nat (List.length s) < SIZE -> nth (Z.to_nat SIZE - 1) (buf (begin s)) 0 = 0.
Proof.
  intros N L. pose proof (begin_agree s N L) as (_ & _ & R). 
  destruct (Z.eq_dec (nth (Z.to_nat SIZE - 1) (buf (begin s)) 0) 0) as [E|E]; [exact E|exfalso].
  revert E. unfold begin, strncpy. cbn [buf].
  rewrite app_nth2; [|rewrite firstn_length; unfold SIZE in *; lia].
  intros E. apply E. apply nth_repeat.
Qed.

Lemma prefer_scan le r global preference s : c_string s -> Z.of_nat (List.length s) < SIZE ->
  prefer le r global preference s =
  match scan S_START [] nothing s with
  | None => Some (-1, blank)
  | Some c => resolve le r global preference c (match ipv4 c with Some _ => true | None => false end) (match ipv6 c with Some _ => true | None => false end)
  end.
Proof.
  intros N L. unfold prefer. rewrite (strncpy_last s N L). cbn [Z.eqb negb].
  destruct (loop_agree s (begin s) S_START [] nothing (S (Z.to_nat SIZE)) (begin_agree s N L) ltac:(discriminate) N ltac:(unfold SIZE in *; lia)) as (p & -> & A).
  destruct (scan S_START [] nothing s) as [c|]; cbn [agree_end] in A.
  - destruct A as (-> & F & F4 & F6). cbn [Z.ltb Z.compare]. rewrite F, F4, F6. reflexivity.
  - rewrite A. reflexivity.
Qed.

(** ** What may be spelled *)

Definition shape (d : parts) : Prop :=
  (path d <> None -> d = only_path (match path d with Some s => s | None => [] end)) /\
  (name d <> None -> d = only_name (match name d with Some s => s | None => [] end)) /\
  (port d = None \/ service d = None) /\
  (fqdn d = None \/ (ipv4 d = None /\ ipv6 d = None)) /\
  (ipv4 d = None \/ ipv6 d = None) /\
  (forall w, port d = Some w -> numeric w).

Lemma follows_shape c l d : follows c l d -> shape c -> port c = None -> service c = None -> name c = None -> path c = None -> shape d.
Proof.
  intros F (S1 & S2 & S3 & S4 & S5 & S6) E1 E2 E3 E4.
  destruct F as [|w N|w N]; [exact (conj S1 (conj S2 (conj S3 (conj S4 (conj S5 S6)))))| |];
  unfold shape; cbn; (split; [congruence|]); (split; [congruence|]); (split; [auto|]); (split; [exact S4|]); (split; [exact S5|]); congruence.
Qed.
Ltac shp := unfold shape; cbn; repeat match goal with |- _ /\ _ => split end; intros; try reflexivity; try congruence; auto.
Lemma spells_shape s d : spells s d -> shape d.
Proof.
  induction 1 as [ x s c K _ IH | | x s K | w s K | l d F | w N | w l d D E | w l d D E | w D K | w D K | w l d D F ]; try exact IH.
  all: try (shp; fail).
  - assert (shape (Parts None None None None None None None)) by shp.
    eapply follows_shape; [exact F|assumption|reflexivity..].
  - assert (shape (Parts None None (Some w) None None None None)) by shp.
    destruct E as [|l d F]; [assumption|eapply follows_shape; [exact F|assumption|reflexivity..]].
  - assert (shape (Parts None None None (Some w) None None None)) by shp.
    destruct E as [|l d F]; [assumption|eapply follows_shape; [exact F|assumption|reflexivity..]].
  - assert (shape (Parts None (Some w) None None None None None)) by shp.
    eapply follows_shape; [exact F|assumption|reflexivity..].
Qed.

Lemma unspecified6 le a : ipv6_ok a -> is_unspecified6 le a = true <-> a = UNSPECIFIED6.
Proof. intros A. unfold is_unspecified6. apply compare6_eq; [exact A|exact addr_unspec]. Qed.
Lemma unspecified6_dec le a : ipv6_ok a -> is_unspecified6 le a = if list_eq_dec Z.eq_dec a UNSPECIFIED6 then true else false.
Proof.
  intros A. destruct (list_eq_dec Z.eq_dec a UNSPECIFIED6) as [E|E].
  - apply unspecified6; assumption.
  - apply not_true_iff_false. rewrite unspecified6 by exact A. exact E.
Qed.
Lemma unspecified4_dec a : is_unspecified a = if Z.eq_dec a 0 then true else false.
Proof. unfold is_unspecified. destruct (Z.eq_dec a 0) as [E|E]; [rewrite E; reflexivity|]. apply Z.eqb_neq. exact E. Qed.
Lemma value_nonneg : forall w n, Forall digit w -> 0 <= n -> 0 <= fold_left (fun n c => 10 * n + (c - 48)) w n.
Proof. induction w as [|c w IH]; intros n F N; cbn [fold_left]; [exact N|]. inversion F as [|c' w' D F']; subst. apply IH; [exact F'|]. unfold digit in D. lia. Qed.
Lemma atoi_value w : numeric w -> atoi w = if value w <=? 2147483647 then Some (value w) else None.
Proof.
  intros (_ & F). pose proof (value_nonneg w 0 F ltac:(lia)) as P. fold (value w) in P. unfold atoi. fold (value w). unfold ck_s32.
  destruct (Z.leb_spec (-2147483648) (value w)); cbn [andb]; [|lia]. destruct (Z.leb_spec (value w) 2147483647), (Z.ltb_spec (value w) 2147483648); try reflexivity; lia.
Qed.

(** ** Resolving *)

Section Resolving.
  Context (le : bool) (r : resolver) (global : bool) (preference : kind) (R : resolver_ok r).
  Set Default Proof Using "All".

  Definition verdict (c : parts) (o : option (Z * endpoint)) : Prop :=
    (meaningful r c -> exists e, o = Some (0, e) /\ means le r global preference c e) /\
    (~ meaningful r c -> exists rc e, o = Some (rc, e) /\ rc < 0 /\ type e = UNSPECIFIED).

  Lemma ok6 h : ipv6_ok (resolve6 r h). Proof. apply R. Qed.

  Lemma un6 : is_unspecified6 le UNSPECIFIED6 = true. Proof. apply (unspecified6 le); [exact addr_unspec|reflexivity]. Qed.

  Ltac six := rewrite ?(unspecified6_dec le _ (ok6 _)), ?unspecified4_dec, ?un6; cbn [Z.eq_dec negb Bool.eqb orb andb].
  Ltac dig :=
    repeat match goal with
      | |- context [list_eq_dec Z.eq_dec ?a ?b] => destruct (list_eq_dec Z.eq_dec a b); cbn [negb orb andb Bool.eqb]
      | |- context [Z.eq_dec ?a ?b] => destruct (Z.eq_dec a b); cbn [negb orb andb Bool.eqb]
      end.
  Ltac pick := unfold rather; destruct preference, global; cbn [negb]; cbn.

  (** The type, as the code has it. *)
  Definition code_type (a4 : Z) (a6 : IpModel.ipv6) (is4 is6 : bool) : kind :=
    if list_eq_dec Z.eq_dec a6 UNSPECIFIED6 then
      if Z.eq_dec a4 0 then (if Bool.eqb is4 is6 then rather global preference else if is6 then IPV6 else IPV4)
      else IPV4
    else if Z.eq_dec a4 0 then IPV6 else if is_v4mapped le a6 then IPV4 else rather global preference.
  (** The end of the code. *)
  Definition code_end (rc : Z) (a4 : Z) (a6 : IpModel.ipv6) (t u : Z) (l : list Z) (isl is4 is6 : bool) : option (Z * endpoint) :=
    if rc <? 0 then Some (rc, Endpoint UNSPECIFIED a4 a6 t u l) else Some (rc, Endpoint (if isl then LOCAL else code_type a4 a6 is4 is6) a4 a6 t u l).
  Lemma code_end_eq (rc a4 : Z) (a6 : IpModel.ipv6) (t u : Z) (l : list Z) (isl is4 is6 : bool) : ipv6_ok a6 ->
    (if rc <? 0 then Some (rc, Endpoint UNSPECIFIED a4 a6 t u l) else
     let chosen := match preference with IPV4 => (true, false) | IPV6 => (false, true) | _ => (negb global, global) end in
     let '(is4, is6) :=
       if negb (is_unspecified6 le a6) then
         if is_unspecified a4 then (false, true)
         else if is_v4mapped le a6 then (true, false)
         else chosen
       else if negb (is_unspecified a4) then (true, false)
       else if negb (Bool.eqb is4 is6) then (is4, is6)
       else chosen in
     Some (rc, Endpoint (if isl then LOCAL else if is6 then IPV6 else if is4 then IPV4 else UNSPECIFIED) a4 a6 t u l))
    = code_end rc a4 a6 t u l isl is4 is6.
  Proof.
    intros A. unfold code_end, code_type. destruct (rc <? 0); [reflexivity|].
    rewrite (unspecified6_dec le a6 A), (unspecified4_dec a4). cbn zeta.
    destruct (list_eq_dec Z.eq_dec a6 UNSPECIFIED6), (Z.eq_dec a4 0), (is_v4mapped le a6), is4, is6, preference, global; reflexivity.
  Qed.
  Lemma resolve_eq c is4 is6 : resolve le r global preference c is4 is6 =
    (let '(rc, a4, a6, is4, is6) :=
    match fqdn c, EndpointModel.ipv6 c, ipv4 c with
    | Some h, _, _ =>
      let a4 := resolve4 r h in let a6 := resolve6 r h in
      if negb (is_unspecified6 le a6) then (0, a4, a6, is4, true)
      else if negb (is_unspecified a4) then (0, a4, a6, true, is6)
      else (-2, a4, a6, is4, is6)
    | None, Some h, _ => (0, 0, resolve6 r h, is4, true)
    | None, None, Some h => (0, resolve4 r h, UNSPECIFIED6, true, is6)
    | None, None, None => (0, 0, UNSPECIFIED6, is4, is6)
    end in
  let '(rc, a4, a6, t, u) :=
    match fqdn c, ipv4 c, EndpointModel.ipv6 c, EndpointModel.name c with
    | None, None, None, Some h =>
      let a4 := resolve4 r h in let a6 := resolve6 r h in
      match service c, port c with
      | None, None =>
        if negb (is_unspecified6 le a6) || negb (is_unspecified a4) then (rc, a4, a6, 0, 0)
        else
          let t := resolve_port r h true in let u := resolve_port r h false in
          if negb (t =? 0) || negb (u =? 0) then (rc, a4, a6, t, u) else (-3, a4, a6, t, u)
      | _, _ => (rc, a4, a6, 0, 0)
      end
    | _, _, _, _ => (rc, a4, a6, 0, 0)
    end in
  let* '(rc, t, u) :=
    match service c, port c with
    | Some s, _ =>
      let t := resolve_port r s true in let u := resolve_port r s false in
      if negb (t =? 0) || negb (u =? 0) then Some (rc, t, u) else Some (-4, t, u)
    | None, Some n => let* n := atoi n in Some (rc, u16 n, u16 n)
    | None, None => Some (rc, t, u)
    end in
  let '(rc, l, isl) :=
    match path c with
    | None => (rc, [], false)
    | Some [] => (rc, [], true)
    | Some s => match resolve_path r s with Some l => (rc, l, true) | None => (-5, [], false) end
    end in
  code_end rc a4 a6 t u l isl is4 is6).
  Proof.
    unfold resolve. set (X := match fqdn c with Some _ => _ | None => _ end). 
    assert (A1 : ipv6_ok (snd (fst (fst X)))).
    { unfold X. destruct (fqdn c) as [h|]; [|destruct (EndpointModel.ipv6 c) as [h|]; [apply ok6|destruct (ipv4 c); apply addr_unspec]].
      cbv zeta. destruct (negb _); [apply ok6|]. destruct (negb _); apply ok6. }
    clearbody X. destruct X as ((((rc & a4) & a6) & k4) & k6). cbn [fst snd] in A1.
    set (X := match fqdn c with Some _ => _ | None => _ end). 
    assert (A2 : ipv6_ok (snd (fst (fst X)))).
    { unfold X. destruct (fqdn c), (ipv4 c), (EndpointModel.ipv6 c), (EndpointModel.name c) as [h|]; try exact A1.
      cbv zeta. destruct (service c), (port c); try apply ok6. destruct (_ || _); [apply ok6|]. destruct (_ || _); apply ok6. }
    clearbody X. destruct X as ((((rc1 & b4) & b6) & t) & u). cbn [fst snd] in A2.
    match goal with |- bind ?x _ = bind ?x _ => destruct x as [[[rc2 t2] u2]|]; [|reflexivity] end.
    cbn [bind]. destruct (path c) as [[|x y]|]; [|destruct (resolve_path r (x :: y))|]; first [exact (code_end_eq rc2 b4 b6 t2 u2 [] true k4 k6 A2)|exact (code_end_eq rc2 b4 b6 t2 u2 _ true k4 k6 A2)|exact (code_end_eq (-5) b4 b6 t2 u2 [] false k4 k6 A2)|exact (code_end_eq rc2 b4 b6 t2 u2 [] false k4 k6 A2)].
  Qed.

  Lemma resolve_verdict c : shape c -> port_ok c ->
    verdict c (resolve le r global preference c (is_some (ipv4 c)) (is_some (ipv6 c))).
  Proof.
    intros (S1 & S2 & S3 & S4 & S5 & S6) P. rewrite resolve_eq.
    assert (AT : forall w, port c = Some w -> atoi w = Some (value w)).
    { intros w E. rewrite (atoi_value w (S6 w E)). pose proof (P w E). destruct (Z.leb_spec (value w) 2147483647); [reflexivity|lia]. }
    clear P S6.
    destruct c as [n f i4 i6 p s l]. cbn [EndpointModel.name fqdn ipv4 EndpointModel.ipv6 port service path] in *.
    unfold verdict, meaningful, means, unresolved, means_port, means_path, means_type, unresolved, means4, means6, hosted.
    destruct l as [l|].
    { specialize (S1 ltac:(discriminate)). injection S1 as -> -> -> -> -> ->. 
      cbn [EndpointModel.name fqdn ipv4 EndpointModel.ipv6 port service path bind is_some].
      split; intros M.
      - destruct l as [|x l].
        + eexists; split; [reflexivity|]. cbn. repeat split; reflexivity.
        + destruct (resolve_path r (x :: l)) as [y|] eqn:E.
          * eexists; split; [reflexivity|]. cbn. repeat split; reflexivity.
          * destruct M as (_ & _ & _ & M). destruct (M _ eq_refl ltac:(discriminate) E).
      - destruct l as [|x l].
        + destruct M. repeat split; congruence.
        + destruct (resolve_path r (x :: l)) as [y|] eqn:E.
          * destruct M. repeat split; congruence.
          * do 2 eexists; split; [reflexivity|]. cbn. repeat split. }
    clear S1.
    destruct n as [h|].
    { specialize (S2 ltac:(discriminate)). injection S2 as -> -> -> -> ->. clear AT S3 S4 S5.
      cbn [EndpointModel.name fqdn ipv4 EndpointModel.ipv6 port service path bind is_some]. cbv zeta.
      six. destruct (list_eq_dec Z.eq_dec (resolve6 r h) UNSPECIFIED6) as [E6|E6], (Z.eq_dec (resolve4 r h) 0) as [E4|E4]; cbn [negb orb].
      2-4: (split; [intros _; eexists; split; [reflexivity|]|intros M; destruct M; split; [congruence|]; split; [intros ? _; left; tauto|split; congruence]]).
      2-4: cbn; unfold code_type; destruct (list_eq_dec Z.eq_dec (resolve6 r h) UNSPECIFIED6), (Z.eq_dec (resolve4 r h) 0); try contradiction; repeat split; tauto.
      destruct (Z.eqb_spec (resolve_port r h true) 0) as [T|T], (Z.eqb_spec (resolve_port r h false) 0) as [U|U]; cbn [negb orb bind].
      1: split; [intros (_ & M & _); specialize (M h eq_refl); tauto|intros _; do 2 eexists; split; [reflexivity|split; [lia|reflexivity]]].
      all: split; [intros _; eexists; split; [reflexivity|]|intros M; destruct M; split; [congruence|]; split; [intros ? [= <-]; tauto|split; congruence]].
      all: cbn; unfold code_type; destruct (list_eq_dec Z.eq_dec (resolve6 r h) UNSPECIFIED6), (Z.eq_dec (resolve4 r h) 0); try contradiction; repeat split; tauto. }
    clear S2.
    cbn [EndpointModel.name fqdn ipv4 EndpointModel.ipv6 port service path bind is_some]. cbv zeta.
    assert (SV : forall x, s = Some x -> (negb (resolve_port r x true =? 0) || negb (resolve_port r x false =? 0) = true /\ (resolve_port r x true <> 0 \/ resolve_port r x false <> 0)) \/ (negb (resolve_port r x true =? 0) || negb (resolve_port r x false =? 0) = false /\ ~ (resolve_port r x true <> 0 \/ resolve_port r x false <> 0))).
    { intros x _. destruct (Z.eqb_spec (resolve_port r x true) 0), (Z.eqb_spec (resolve_port r x false) 0); cbn; tauto. }
    destruct f as [f|].
    - destruct S4 as [|(-> & ->)]; [discriminate|]. clear S5. six.
      destruct s as [s|]; [destruct S3 as [->|]; [|discriminate]; destruct (SV s eq_refl) as [(-> & Q)|(-> & Q)]|destruct p as [p|]; [rewrite (AT p eq_refl)|]];
      destruct (list_eq_dec Z.eq_dec (resolve6 r f) UNSPECIFIED6) as [E6|E6], (Z.eq_dec (resolve4 r f) 0) as [E4|E4]; cbn [negb orb bind]; unfold code_end; cbn [Z.ltb Z.compare];
      (split; intros M;
       [first [exfalso; destruct M as (M1 & _ & M2 & _); first [destruct (Q (M2 s eq_refl))|destruct (M1 ltac:(discriminate)); split; assumption]
              |eexists; split; [reflexivity|]; cbn; unfold code_type; destruct (list_eq_dec Z.eq_dec (resolve6 r f) UNSPECIFIED6), (Z.eq_dec (resolve4 r f) 0); try contradiction; repeat split; reflexivity]
       |first [exfalso; apply M; split; [intros _; tauto|]; split; [congruence|]; split; [intros ? [= <-]; exact Q|congruence]
              |exfalso; apply M; split; [intros _; tauto|]; split; [congruence|]; split; congruence
              |do 2 eexists; split; [reflexivity|split; [lia|reflexivity]]]]).
    - clear S4. destruct i6 as [i6|]; [destruct S5 as [->|]; [|discriminate]|].
      all: destruct s as [s|]; [destruct S3 as [->|]; [|discriminate]; destruct (SV s eq_refl) as [(-> & Q)|(-> & Q)]|destruct p as [p|]; [rewrite (AT p eq_refl)|]].
      all: try (destruct i4 as [i4|]).
      all: cbn [negb orb bind is_some]; unfold code_end; cbn [Z.ltb Z.compare].
      all: (split; intros M;
       [first [exfalso; destruct M as (M1 & _ & M2 & _); destruct (Q (M2 s eq_refl))
              |eexists; split; [reflexivity|]; cbn; unfold code_type; dig; try contradiction; repeat split; reflexivity]
       |first [exfalso; apply M; split; [congruence|]; split; [congruence|]; split; [intros ? [= <-]; exact Q|congruence]
              |exfalso; apply M; split; [congruence|]; split; [congruence|]; split; congruence
              |do 2 eexists; split; [reflexivity|split; [lia|reflexivity]]]]).
  Qed.
End Resolving.

Lemma resolve_undefined le r global preference c is4 is6 : resolver_ok r -> shape c -> ~ port_ok c -> resolve le r global preference c is4 is6 = None.
Proof.
  intros R (S1 & S2 & S3 & S4 & S5 & S6) P. rewrite (resolve_eq le r global preference R).
  destruct (port c) as [w|] eqn:E; [|destruct P; intros w E'; congruence].
  assert (V : 2147483647 < value w). { destruct (Z_le_gt_dec (value w) 2147483647) as [L|G]; [|lia]. destruct P. intros w' E'. rewrite E in E'. injection E' as <-. exact L. }
  assert (A : atoi w = None). { rewrite atoi_value by (apply S6; reflexivity). destruct (Z.leb_spec (value w) 2147483647); [lia|reflexivity]. }
  destruct S3 as [|S3]; [discriminate|]. rewrite S3, A.
  match goal with |- match ?x with _ => _ end = _ => destruct x as ((((x1 & x2) & x3) & x4) & x5) end.
  match goal with |- match ?x with _ => _ end = _ => destruct x as ((((y1 & y2) & y3) & y4) & y5) end.
  reflexivity.
Qed.

Lemma prefer_long le r global preference s : c_string s -> SIZE <= Z.of_nat (List.length s) -> prefer le r global preference s = Some (0, blank).
Proof.
  intros N L. unfold prefer, begin. cbn [buf]. unfold strncpy.
  assert (I : (Z.to_nat SIZE - 1 < List.length (firstn (Z.to_nat SIZE) s))%nat) by (rewrite firstn_length; unfold SIZE in *; lia).
  rewrite app_nth1 by exact I.
  destruct (Z.eqb_spec (nth (Z.to_nat SIZE - 1) (firstn (Z.to_nat SIZE) s) 0) 0) as [E|]; [|reflexivity].
  exfalso. pose proof (nth_In _ 0 I) as K. rewrite E in K. apply N. rewrite <- (firstn_skipn (Z.to_nat SIZE) s). apply in_or_app. left. exact K.
Qed.

Section Prefer.
  Context (le : bool) (r : resolver) (global : bool) (preference : kind) (s : list Z) (R : resolver_ok r) (N : c_string s) (L : Z.of_nat (List.length s) < SIZE).
  Set Default Proof Using "All".
  Lemma prefer_spelled c : spells s c -> port_ok c -> verdict le r global preference c (prefer le r global preference s).
  Proof. intros S P. rewrite prefer_scan, (scan_complete s c S N) by assumption. apply resolve_verdict; [exact R|exact (spells_shape s c S)|exact P]. Qed.
  Lemma prefer_undefined c : spells s c -> ~ port_ok c -> prefer le r global preference s = None.
  Proof. intros S P. rewrite prefer_scan, (scan_complete s c S N) by assumption. apply resolve_undefined; [exact R|exact (spells_shape s c S)|exact P]. Qed.
  Lemma prefer_unspelled : (forall c, ~ spells s c) -> prefer le r global preference s = Some (-1, blank).
  Proof. intros H. rewrite prefer_scan by assumption. destruct (scan S_START [] nothing s) as [d|] eqn:E; [|reflexivity]. destruct (H d). apply scan_sound; assumption. Qed.
  Lemma spelled_dec : (exists c, spells s c) \/ (forall c, ~ spells s c).
  Proof. destruct (scan S_START [] nothing s) as [d|] eqn:E; [left; exists d; apply scan_sound; assumption|right; intros c S]. rewrite (scan_complete s c S N) in E. discriminate. Qed.
End Prefer.
Lemma port_ok_dec c : port_ok c \/ ~ port_ok c.
Proof. unfold port_ok. destruct (port c) as [w|]; [|left; congruence]. destruct (Z_le_gt_dec (value w) 2147483647); [left; intros ? [= <-]; assumption|right; intros H; specialize (H w eq_refl); lia]. Qed.
Lemma unresolved_dec r c : unresolved r c \/ ~ unresolved r c.
Proof. unfold unresolved. destruct (Z.eq_dec (means4 r c) 0), (list_eq_dec Z.eq_dec (means6 r c) UNSPECIFIED6); tauto. Qed.
Lemma meaningful_dec r c : meaningful r c \/ ~ meaningful r c.
Proof.
  unfold meaningful. pose proof (unresolved_dec r c) as U.
  assert (A : (fqdn c <> None -> ~ unresolved r c) \/ ~ (fqdn c <> None -> ~ unresolved r c)). { destruct (fqdn c); [destruct U as [U|U]; [right; intros X; apply X; [discriminate|exact U]|left; intros _; exact U]|left; congruence]. }
  assert (D : forall h, (resolve_port r h true <> 0 \/ resolve_port r h false <> 0) \/ ~ (resolve_port r h true <> 0 \/ resolve_port r h false <> 0)) by (intros h; destruct (Z.eq_dec (resolve_port r h true) 0), (Z.eq_dec (resolve_port r h false) 0); tauto).
  assert (B : (forall h, name c = Some h -> ~ unresolved r c \/ resolve_port r h true <> 0 \/ resolve_port r h false <> 0) \/ ~ (forall h, name c = Some h -> ~ unresolved r c \/ resolve_port r h true <> 0 \/ resolve_port r h false <> 0)).
  { destruct (name c) as [h|]; [|left; congruence]. destruct (D h) as [X|X]; [left; intros h' [= <-]; right; exact X|]. destruct U as [U|U]; [right; intros Y; destruct (Y h eq_refl); tauto|left; intros; left; exact U]. }
  assert (C : (forall s, service c = Some s -> resolve_port r s true <> 0 \/ resolve_port r s false <> 0) \/ ~ (forall s, service c = Some s -> resolve_port r s true <> 0 \/ resolve_port r s false <> 0)).
  { destruct (service c) as [h|]; [|left; congruence]. destruct (D h) as [X|X]; [left; intros h' [= <-]; exact X|right; intros Y; exact (X (Y h eq_refl))]. }
  assert (E : (forall s, path c = Some s -> s <> [] -> resolve_path r s <> None) \/ ~ (forall s, path c = Some s -> s <> [] -> resolve_path r s <> None)).
  { destruct (path c) as [[|x l]|]; [left; congruence| |left; congruence]. destruct (resolve_path r (x :: l)) eqn:Q; [left; intros s' [= <-] _; congruence|right; intros Y; apply (Y _ eq_refl); [discriminate|exact Q]]. }
  tauto.
Qed.

(** ** Printing *)

Lemma digits_string w : Forall digit w -> ~ In 0 w.
Proof. intros F I. rewrite Forall_forall in F. specialize (F 0 I). unfold digit in F. lia. Qed.
Lemma dotted_string w : dotted w -> ~ In 0 w.
Proof.
  intros (n & l & -> & (_ & F) & G) I. apply in_app_iff in I as [I|[I|I]]; [exact (digits_string n F I)|unfold PERIOD in I; lia|].
  rewrite Forall_forall in G. specialize (G 0 I). unfold digit, PERIOD in G. lia.
Qed.
Lemma sixly_string w : Forall sixly w -> ~ In 0 w.
Proof. intros F I. rewrite Forall_forall in F. specialize (F 0 I). unfold sixly, digit, COLON, PERIOD in F. lia. Qed.

Definition only_port (q : printer) (n : Z) : list Z := if n =? 0 then [] else COLON :: print_port q n.
Definition ported (q : printer) (c : parts) (n : Z) : parts := if n =? 0 then c else with_port c (print_port q n).
Lemma only_port_ends q c n : prints_port q n -> ends c (only_port q n) (ported q c n).
Proof. intros (P & _). unfold only_port, ported. destruct (n =? 0); constructor. constructor. exact P. Qed.
Lemma only_port_string q n : prints_port q n -> ~ In 0 (only_port q n) /\ (List.length (only_port q n) <= 6)%nat.
Proof. intros ((_ & F) & _ & L). unfold only_port. destruct (n =? 0); cbn [In List.length]; (split; [|lia]); [tauto|]. intros [I|I]; [unfold COLON in I; lia|exact (digits_string _ F I)]. Qed.
Lemma ports_eq q n : (if negb (n =? 0) || negb (n =? 0) then COLON :: print_port q n else []) ++ (if (negb (n =? 0) || negb (n =? 0)) && negb (n =? n) then COLON :: print_port q n else []) = only_port q n.
Proof. rewrite Z.eqb_refl, andb_false_r, app_nil_r. unfold only_port. destruct (n =? 0); reflexivity. Qed.

Lemma round_trip_ports q n c b r : prints_port q n -> is_u16 n -> port c = None -> service c = None -> name c = None -> means_port r (ported q c n) b n.
Proof.
  intros (_ & V & _) U E1 E2 E3. unfold ported. destruct (Z.eqb_spec n 0) as [Z0|_]; unfold means_port; cbn [with_port service port EndpointModel.name]; rewrite E2, ?E1, ?E3; [exact Z0|].
  rewrite V, Z.mod_small; [reflexivity|exact U].
Qed.
Lemma port_determined r c b n m : (forall h, name c <> Some h) -> means_port r c b n -> means_port r c b m -> n = m.
Proof. unfold means_port. intros H A B. destruct (service c); [congruence|]. destruct (port c); [congruence|]. destruct (name c) as [h|]; [destruct (H h eq_refl)|congruence]. Qed.

(** Of what is spelled there is one meaning. *)
Lemma means_determined le r global preference c e f : means le r global preference c e -> means le r global preference c f -> e = f.
Proof.
  intros (A1 & A2 & A3 & A4 & A5 & A6) (B1 & B2 & B3 & B4 & B5 & B6). destruct e as [t a b x y l], f as [t' a' b' x' y' l'].
  cbn [type address4 address6 tcp udp local] in *. subst a b t a' b' t'.
  assert (P : forall b x y, means_port r c b x -> means_port r c b y -> x = y).
  { intros b m n M1 M2. unfold means_port in *. destruct (service c); [congruence|]. destruct (port c); [congruence|]. destruct (name c); [|congruence]. destruct (unresolved_dec r c); intuition congruence. }
  rewrite (P _ _ _ A3 B3), (P _ _ _ A4 B4). f_equal. unfold means_path in *. destruct (path c) as [[|? ?]|]; congruence.
Qed.

Section Round.
  Context (le : bool) (r : resolver) (q : printer) (R : resolver_ok r).
  Set Default Proof Using "All".

  Lemma round_trip s c e global preference : c_string s -> Z.of_nat (List.length s) < SIZE -> spells s c -> port_ok c -> meaningful r c ->
    means le r global preference c e -> prefer le r global preference s = Some (0, e).
  Proof.
    intros N L S P M E. destruct (prefer_spelled le r global preference s R N L c S P) as (A & _). destruct (A M) as (f & -> & F).
    rewrite (means_determined le r global preference c e f E F). reflexivity.
  Qed.

  Lemma port_value n c : prints_port q n -> is_u16 n -> port c = None -> port_ok (ported q c n).
  Proof. intros (_ & V & _) U E. unfold port_ok, ported. destruct (n =? 0); [congruence|]. cbn. intros w [= <-]. rewrite V. unfold is_u16 in U. lia. Qed.

  Lemma round4 a n length_ : a <> 0 -> is_u16 n -> prints4 r q a -> prints_port q n -> 64 <= length_ ->
    exists s, endpoint2string le r q (Endpoint IPV4 a UNSPECIFIED6 n n []) length_ = Some s /\
      forall global preference, prefer le r global preference s = Some (0, Endpoint IPV4 a UNSPECIFIED6 n n []).
  Proof.
    intros A U (D & RA & LA) P L. pose proof (only_port_string q n P) as (PS & PL).
    exists (print4 q a ++ only_port q n).
    unfold endpoint2string. cbn [type address4 address6 tcp udp local]. rewrite (proj2 (unspecified6 le UNSPECIFIED6 addr_unspec) eq_refl). cbn [negb]. rewrite ports_eq.
    rewrite unspecified4_dec. destruct (Z.eq_dec a 0); [contradiction|]. cbn [negb]. rewrite app_nil_r.
    split; [destruct (Z.leb_spec length_ 0); [lia|]; f_equal; apply firstn_all2; rewrite app_length; lia|].
    intros global preference.
    set (c := Parts None None (Some (print4 q a)) None None None None).
    apply (round_trip _ (ported q c n)).
    - intros I. apply in_app_iff in I as [I|I]; [exact (dotted_string _ D I)|exact (PS I)].
    - rewrite app_length. unfold SIZE. lia.
    - apply Sp_ipv4; [exact D|]. apply only_port_ends. exact P.
    - apply port_value; [exact P|exact U|reflexivity].
    - unfold meaningful, ported. destruct (n =? 0); cbn; repeat split; congruence.
    - unfold means. cbn [type address4 address6 tcp udp local].
      split; [unfold means4, hosted, ported; destruct (n =? 0); cbn; congruence|].
      split; [unfold means6, hosted, ported; destruct (n =? 0); reflexivity|].
      split; [apply round_trip_ports; auto|]. split; [apply round_trip_ports; auto|].
      split; [unfold means_path, ported; destruct (n =? 0); reflexivity|].
      unfold means_type, means4, means6, hosted, ported. destruct (n =? 0); cbn; rewrite RA; destruct (Z.eq_dec a 0); try contradiction; reflexivity.
  Qed.
  Lemma round6 a n length_ : a <> UNSPECIFIED6 -> is_u16 n -> prints6 r q a -> prints_port q n -> 64 <= length_ ->
    exists s, endpoint2string le r q (Endpoint IPV6 0 a n n []) length_ = Some s /\
      forall global preference, prefer le r global preference s = Some (0, Endpoint IPV6 0 a n n []).
  Proof.
    intros A U (D & RA & LA) P L. pose proof (only_port_string q n P) as (PS & PL).
    exists (OPENS :: print6 q a ++ CLOSES :: only_port q n).
    unfold endpoint2string. cbn [type address4 address6 tcp udp local]. rewrite ports_eq.
    assert (OK : ipv6_ok a) by (rewrite <- RA; apply R).
    rewrite (unspecified6_dec le a OK). destruct (list_eq_dec Z.eq_dec a UNSPECIFIED6); [contradiction|]. change (is_unspecified 0) with true. cbn [negb].
    split; [destruct (Z.leb_spec length_ 0); [lia|]; f_equal|].
    { rewrite app_nil_r. rewrite firstn_all2; [cbn [app]; rewrite <- app_assoc; reflexivity|]. cbn [List.length app]. rewrite !app_length. cbn [List.length]. lia. }
    intros global preference.
    set (c := Parts None None None (Some (print6 q a)) None None None).
    apply (round_trip _ (ported q c n)).
    - intros [I|I]; [unfold OPENS in I; lia|]. apply in_app_iff in I as [I|[I|I]]; [exact (sixly_string _ D I)|unfold CLOSES in I; lia|exact (PS I)].
    - cbn [List.length]. rewrite app_length. cbn [List.length]. unfold SIZE. lia.
    - apply Sp_ipv6; [exact D|]. apply only_port_ends. exact P.
    - apply port_value; [exact P|exact U|reflexivity].
    - unfold meaningful, ported. destruct (n =? 0); cbn; repeat split; congruence.
    - unfold means. cbn [type address4 address6 tcp udp local].
      split; [unfold means4, hosted, ported; destruct (n =? 0); reflexivity|].
      split; [unfold means6, hosted, ported; destruct (n =? 0); cbn; congruence|].
      split; [apply round_trip_ports; auto|]. split; [apply round_trip_ports; auto|].
      split; [unfold means_path, ported; destruct (n =? 0); reflexivity|].
      unfold means_type, means4, means6, hosted, ported. destruct (n =? 0); cbn [EndpointModel.name fqdn ipv4 EndpointModel.ipv6 port service path with_port c]; rewrite RA; destruct (list_eq_dec Z.eq_dec a UNSPECIFIED6); try contradiction; reflexivity.
  Qed.
  Lemma round_local l length_ : c_string l -> Z.of_nat (List.length l) < SIZE -> (l = [] \/ exists t, l = SLASH :: t) -> resolve_path r l = Some l -> Z.of_nat (List.length l) < length_ ->
    exists s, endpoint2string le r q (Endpoint LOCAL 0 UNSPECIFIED6 0 0 l) length_ = Some s /\
      forall global preference, prefer le r global preference s = Some (0, Endpoint LOCAL 0 UNSPECIFIED6 0 0 l).
  Proof.
    intros N S K P L. exists l. split.
    - unfold endpoint2string. cbn [type local]. unfold path2string. destruct (Z.leb_spec length_ 0); [lia|]. destruct (Z.eqb_spec length_ 0); [lia|].
      destruct (Z.eqb_spec length_ 1) as [E|E]; [destruct l; [reflexivity|cbn [List.length] in L; lia]|].
      destruct l as [|x l]; [reflexivity|]. rewrite P. rewrite Z.geb_leb. destruct (Z.leb_spec length_ (Z.of_nat (List.length (x :: l)))); [lia|reflexivity].
    - intros global preference. apply (round_trip _ (only_path l)); [exact N|exact S| | | | ].
      + destruct K as [->|(t & ->)]; [apply Sp_empty|apply Sp_path; left; reflexivity].
      + intros w. discriminate.
      + unfold meaningful. cbn. repeat split; try congruence.
      + unfold means. cbn. repeat split. unfold means_path. cbn. destruct l; [reflexivity|exact P].
  Qed.
End Round.
