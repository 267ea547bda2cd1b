(** Proofs about the code sections. *)

From Coq Require Import ZArith List Bool Lia.
From Verif Require Import SectionModel SectionSpec.
Import ListNotations.
Local Open Scope Z_scope.

Lemma unblockable_bit : forall s, Z.testbit unblockable s = (s =? 9) || (s =? 19).
Proof.
  intros s. unfold unblockable. rewrite Z.lor_spec. destruct (Z.ltb_spec s 0) as [N|N]; [rewrite !Z.testbit_neg_r by assumption; destruct (Z.eqb_spec s 9), (Z.eqb_spec s 19); lia || reflexivity|].
  rewrite !Z.pow2_bits_eqb by lia. rewrite (Z.eqb_sym 9), (Z.eqb_sym 19). reflexivity.
Qed.
Lemma possible_ldiff : forall m, possible m -> Z.ldiff m unblockable = m.
Proof.
  intros m (P9 & P19). apply Z.bits_inj'. intros n N. rewrite Z.ldiff_spec, unblockable_bit. destruct (Z.eqb_spec n 9) as [->|]; [rewrite P9; reflexivity|]. destruct (Z.eqb_spec n 19) as [->|]; [rewrite P19; reflexivity|]. cbn. apply andb_true_r.
Qed.

Lemma adds_bits : forall signals set set', adds set signals = Some set' ->
  Forall signal signals /\ forall s, Z.testbit set' s = Z.testbit set s || existsb (Z.eqb s) signals.
Proof.
  induction signals as [|x signals IH]; intros set set' H; cbn [adds] in H; [injection H as <-; split; [constructor|intros; rewrite orb_false_r; reflexivity]|].
  unfold sigaddset in H. destruct (Z.leb_spec 1 x), (Z.leb_spec x 64), (Z.eqb_spec x 32), (Z.eqb_spec x 33); cbn [andb negb] in H; try discriminate H.
  destruct (IH _ _ H) as (F & B). split; [constructor; [red; lia|exact F]|]. intros s. rewrite B. cbn [existsb]. rewrite Z.setbit_eqb by lia. rewrite (Z.eqb_sym x). destruct (s =? x), (Z.testbit set s), (existsb _ signals); reflexivity.
Qed.
Lemma adds_ok : forall signals set, Forall signal signals -> exists set', adds set signals = Some set'.
Proof.
  induction signals as [|x signals IH]; intros set F; cbn [adds]; [eauto|]. inversion F as [|? ? (A & B & C) F']; subst. unfold sigaddset.
  destruct (Z.leb_spec 1 x); [|lia]. destruct (Z.leb_spec x 64); [|lia]. destruct (Z.eqb_spec x 32); [lia|]. destruct (Z.eqb_spec x 33); [lia|]. cbn [andb negb]. apply IH, F'.
Qed.
Lemma block_bits : forall mask signals m, block mask signals = Some m ->
  Forall signal signals /\ forall s, Z.testbit m s = Z.testbit mask s || (existsb (Z.eqb s) signals && negb ((s =? 9) || (s =? 19))).
Proof.
  intros mask signals m H. unfold block in H. destruct (adds 0 signals) as [set|] eqn:A; [|discriminate H]. injection H as <-. destruct (adds_bits _ _ _ A) as (F & B). split; [exact F|].
  intros s. unfold sig_block. rewrite Z.lor_spec, Z.ldiff_spec, unblockable_bit, B, Z.bits_0. reflexivity.
Qed.
Lemma block_none : forall mask signals, ~ Forall signal signals <-> block mask signals = None.
Proof.
  intros. unfold block. destruct (adds 0 signals) as [set|] eqn:A; split; try discriminate; try reflexivity.
  - intros N. exfalso. apply N. exact (proj1 (adds_bits _ _ _ A)).
  - intros _ F. destruct (adds_ok signals 0 F) as (s & E). congruence.
Qed.
Lemma block_possible : forall mask signals m, block mask signals = Some m -> possible mask -> possible m.
Proof. intros mask signals m H (A & B). destruct (block_bits _ _ _ H) as (_ & T). split; rewrite T, ?A, ?B; cbn; rewrite ?andb_false_r; reflexivity. Qed.

Lemma drop_head : forall x l, drop x (x :: l) = l.
Proof. intros. cbn [drop]. rewrite Z.eqb_refl. reflexivity. Qed.

(** A section, begun or tried. *)
Lemma section_inv : forall (c : code) k body e o e', (c = Begin k body \/ exists taken, c = Try k taken body) -> eval c e = Some (o, e') ->
  (e' = e /\ (o = Aborted \/ o = Hung \/ o = Done)) \/ exists taken e1, enter k taken e = Entered e1 /\ close k (mask e) (eval body e1) = Some (o, e').
Proof.
  intros c k body e o e' [->|(taken & ->)] H; cbn [eval] in H.
  - destruct (enter k false e) as [e1|] eqn:E; [right; eauto|]. left. injection H as <- <-. split; [reflexivity|]. destruct k; tauto.
  - destruct (enter k taken e) as [e1|] eqn:E; [right; eauto|]. left. injection H as <- <-. tauto.
Qed.

Definition kept (e : env) (o : outcome) (e' : env) : Prop :=
  (over o -> mutexes e' = mutexes e) /\ ((o = Done \/ o = Broken) -> spins e' = spins e).

Lemma kept_section : forall k taken e e1 o e' r, enter k taken e = Entered e1 ->
  (forall o1 e2, r = Some (o1, e2) -> kept e1 o1 e2) -> close k (mask e) r = Some (o, e') -> kept e o e'.
Proof.
  intros k taken e e1 o e' r EN IH H. destruct r as [(o1, e2)|]; [|discriminate H]. destruct (IH _ _ eq_refl) as (M & S). unfold close in H.
  assert (X : (exists sg m, k = Uninterruptible sg /\ e1 = Env m (mutexes e) (spins e) (trace e)) \/ (exists m, k = Critical m /\ e1 = Env (mask e) (m :: mutexes e) (spins e) (trace e)) \/ (exists m, k = Serialized m /\ e1 = Env (mask e) (mutexes e) (m :: spins e) (trace e))).
  { unfold enter in EN. destruct k as [sg|m|m]; [destruct (block (mask e) sg)|destruct (taken || memb m (mutexes e))|destruct (taken || memb m (spins e))]; try discriminate EN; injection EN as <-; eauto 6. }
  unfold over in M. destruct X as [(sg & m & -> & ->)|[(m & -> & ->)|(m & -> & ->)]]; cbn [mutexes spins] in M, S;
    destruct o1; try discriminate H; injection H as <- <-; unfold kept, over; cbn [leave mutexes spins]; split; intros Q;
    try (exfalso; destruct Q; congruence); try (rewrite M by (split; discriminate)); try (rewrite S by tauto); rewrite ?drop_head; try reflexivity; apply M || apply S; tauto || (split; discriminate).
Qed.

Lemma eval_kept : forall c e o e', eval c e = Some (o, e') -> kept e o e'.
Proof.
  induction c as [n|set|a IHa b IHb| | | |k body IH|k taken body IH]; intros e o e' H; try (cbn [eval] in H; injection H as <- <-; split; intros; reflexivity).
  - cbn [eval] in H. destruct (eval a e) as [(o1, e1)|] eqn:E; [|discriminate H]. destruct (IHa _ _ _ E) as (M & S). destruct o1; try (injection H as <- <-; split; assumption).
    destruct (IHb _ _ _ H) as (M' & S'). split; intros Q; [rewrite M' by exact Q; apply M; split; discriminate|rewrite S' by exact Q; apply S; tauto].
  - destruct (section_inv _ k body e o e' (or_introl eq_refl) H) as [(-> & _)|(t & e1 & EN & CL)]; [split; intros; reflexivity|]. eapply kept_section; [exact EN|intros; eapply IH; eassumption|exact CL].
  - destruct (section_inv _ k body e o e' (or_intror (ex_intro _ taken eq_refl)) H) as [(-> & _)|(t & e1 & EN & CL)]; [split; intros; reflexivity|]. eapply kept_section; [exact EN|intros; eapply IH; eassumption|exact CL].
Qed.

Lemma cleaned_spins : forall c e o e', cleaned c -> eval c e = Some (o, e') -> spins e' = spins e.
Proof.
  assert (SE : forall k (body : code), (match k with Serialized _ => False | _ => cleaned body end) ->
    (forall e o e', cleaned body -> eval body e = Some (o, e') -> spins e' = spins e) ->
    forall taken e e1 o e', enter k taken e = Entered e1 -> close k (mask e) (eval body e1) = Some (o, e') -> spins e' = spins e).
  { intros k body C IH taken e e1 o e' EN CL. destruct (eval body e1) as [(o1, e2)|] eqn:EB; [|discriminate CL].
    destruct k as [sg|m|m]; [| |destruct C]; specialize (IH _ _ _ C EB); unfold enter in EN; [destruct (block (mask e) sg)|destruct (taken || memb m (mutexes e))]; try discriminate EN; injection EN as <-; cbn [spins] in IH;
      unfold close in CL; destruct o1; try discriminate CL; injection CL as <- <-; exact IH. }
  induction c as [n|set|a IHa b IHb| | | |k body IH|k taken body IH]; intros e o e' C H; try (cbn [eval] in H; injection H as <- <-; reflexivity).
  - cbn [eval] in H. destruct C as (Ca & Cb). destruct (eval a e) as [(o1, e1)|] eqn:E; [|discriminate H]. specialize (IHa _ _ _ Ca E). destruct o1; try (injection H as <- <-; exact IHa). rewrite (IHb _ _ _ Cb H). exact IHa.
  - destruct (section_inv _ k body e o e' (or_introl eq_refl) H) as [(-> & _)|(t & e1 & EN & CL)]; [reflexivity|]. eapply SE; try eassumption.
  - destruct (section_inv _ k body e o e' (or_intror (ex_intro _ taken eq_refl)) H) as [(-> & _)|(t & e1 & EN & CL)]; [reflexivity|]. eapply SE; try eassumption.
Qed.

Lemma undisturbed_outcome : forall c e, undisturbed c -> exists o e', eval c e = Some (o, e') /\ o <> Returned /\ o <> Cancelled.
Proof.
  assert (SE : forall k saved r o e, r = Some (o, e) -> o <> Returned -> o <> Cancelled -> exists o' e', close k saved r = Some (o', e') /\ o' <> Returned /\ o' <> Cancelled).
  { intros k saved r o e -> A B. unfold close. destruct o; try congruence; do 2 eexists; (split; [reflexivity|]; split; discriminate). }
  induction c as [n|set|a IHa b IHb| | | |k body IH|k taken body IH]; intros e U; cbn [undisturbed] in U; try destruct U; cbn [eval]; try (do 2 eexists; split; [reflexivity|]; split; discriminate).
  - destruct (IHa e H) as (o & e1 & -> & A & B). destruct o; try congruence; try (do 2 eexists; split; [reflexivity|]; split; discriminate). exact (IHb e1 H0).
  - destruct (enter k false e) as [e1|]; [|destruct k; do 2 eexists; split; [reflexivity|split; discriminate|reflexivity|split; discriminate|reflexivity|split; discriminate]]. destruct (IH e1 U) as (o & e2 & E & A & B). eapply SE; eassumption.
  - destruct (enter k taken e) as [e1|]; [|do 2 eexists; split; [reflexivity|split; discriminate]]. destruct (IH e1 U) as (o & e2 & E & A & B). eapply SE; eassumption.
Qed.

Lemma scoped_mask : forall c e o e', scoped c -> possible (mask e) -> eval c e = Some (o, e') -> over o -> mask e' = mask e.
Proof.
  assert (SE : forall k (body : code), (match k with Uninterruptible _ => True | _ => scoped body end) ->
    (forall e o e', scoped body -> possible (mask e) -> eval body e = Some (o, e') -> over o -> mask e' = mask e) ->
    forall taken e e1 o e', possible (mask e) -> enter k taken e = Entered e1 -> close k (mask e) (eval body e1) = Some (o, e') -> over o -> mask e' = mask e).
  { intros k body C IH taken e e1 o e' P EN CL OV. destruct (eval body e1) as [(o1, e2)|] eqn:EB; [|discriminate CL].
    destruct k as [sg|m|m]; unfold enter in EN; [destruct (block (mask e) sg)|destruct (taken || memb m (mutexes e))|destruct (taken || memb m (spins e))]; try discriminate EN; injection EN as <-;
      unfold close in CL; destruct o1; try discriminate CL; injection CL as <- <-; cbn [leave mask sig_setmask]; try (destruct OV; congruence); try (apply possible_ldiff, P);
      (refine (IH _ _ _ C _ EB _); [exact P|split; discriminate]). }
  induction c as [n|set|a IHa b IHb| | | |k body IH|k taken body IH]; intros e o e' C P H OV; try (cbn [eval] in H; injection H as <- <-; reflexivity).
  - destruct C.
  - cbn [eval] in H. destruct C as (Ca & Cb). destruct (eval a e) as [(o1, e1)|] eqn:E; [|discriminate H]. specialize (IHa _ _ _ Ca P E).
    destruct o1; try (injection H as <- <-; exact (IHa OV)). assert (Q : mask e1 = mask e) by (apply IHa; split; discriminate). rewrite <- Q in P |- *. exact (IHb _ _ _ Cb P H OV).
  - destruct (section_inv _ k body e o e' (or_introl eq_refl) H) as [(-> & _)|(t & e1 & EN & CL)]; [reflexivity|]. eapply SE; try eassumption.
  - destruct (section_inv _ k body e o e' (or_intror (ex_intro _ taken eq_refl)) H) as [(-> & _)|(t & e1 & EN & CL)]; [reflexivity|]. eapply SE; try eassumption.
Qed.
Lemma untouched_scoped : forall c, untouched c -> scoped c.
Proof. induction c as [n|set|a IHa b IHb| | | |k body IH|k taken body IH]; cbn [untouched scoped]; try tauto; destruct k; try tauto. Qed.

(** What was so at each piece of work. *)
Definition saw (e : env) (x : Z * Z * list Z * list Z) : Prop :=
  let '(_, m, mu, sp) := x in incl (mutexes e) mu /\ incl (spins e) sp.
Definition blocked (e : env) (x : Z * Z * list Z * list Z) : Prop := let '(_, m, _, _) := x in keeps (mask e) m.

Lemma close_trace : forall k saved o1 e2 o e', close k saved (Some (o1, e2)) = Some (o, e') -> trace e' = trace e2.
Proof. intros k saved o1 e2 o e' H. unfold close in H. destruct o1; destruct k; try discriminate H; injection H as <- <-; reflexivity. Qed.
Lemma enter_facts : forall k taken e e1, enter k taken e = Entered e1 ->
  trace e1 = trace e /\ incl (mutexes e) (mutexes e1) /\ incl (spins e) (spins e1) /\ keeps (mask e) (mask e1) /\ (possible (mask e) -> possible (mask e1)) /\
  match k with
  | Uninterruptible sg => Forall signal sg /\ forall s, In s sg -> s <> 9 -> s <> 19 -> Z.testbit (mask e1) s = true
  | Critical m => In m (mutexes e1)
  | Serialized l => In l (spins e1)
  end.
Proof.
  intros k taken e e1 H. unfold enter in H. destruct k as [sg|m|m]; [destruct (block (mask e) sg) eqn:B|destruct (taken || memb m (mutexes e))|destruct (taken || memb m (spins e))]; try discriminate H; injection H as <-; cbn [trace mutexes spins mask].
  - destruct (block_bits _ _ _ B) as (F & T). split; [reflexivity|]. split; [apply incl_refl|]. split; [apply incl_refl|]. split; [intros s S; rewrite T, S; reflexivity|]. split; [apply (block_possible _ _ _ B)|]. split; [exact F|].
    intros s I N9 N19. rewrite T. replace (existsb (Z.eqb s) sg) with true by (symmetry; apply existsb_exists; exists s; split; [exact I|apply Z.eqb_refl]). destruct (Z.eqb_spec s 9), (Z.eqb_spec s 19); try lia; apply orb_true_r.
  - split; [reflexivity|]. split; [try apply incl_refl; apply incl_tl, incl_refl|]. split; [try apply incl_refl; apply incl_tl, incl_refl|]. split; [intros s S; exact S|]. split; [tauto|]. left; reflexivity.
  - split; [reflexivity|]. split; [try apply incl_refl; apply incl_tl, incl_refl|]. split; [try apply incl_refl; apply incl_tl, incl_refl|]. split; [intros s S; exact S|]. split; [tauto|]. left; reflexivity.
Qed.

Lemma eval_trace : forall c e o e', eval c e = Some (o, e') -> exists l, trace e' = trace e ++ l /\ Forall (saw e) l.
Proof.
  assert (SE : forall k (body : code), (forall e o e', eval body e = Some (o, e') -> exists l, trace e' = trace e ++ l /\ Forall (saw e) l) ->
    forall taken e e1 o e', enter k taken e = Entered e1 -> close k (mask e) (eval body e1) = Some (o, e') -> exists l, trace e' = trace e ++ l /\ Forall (saw e) l).
  { intros k body IH taken e e1 o e' EN CL. destruct (eval body e1) as [(o1, e2)|] eqn:EB; [|discriminate CL]. destruct (IH _ _ _ EB) as (l & T & F). destruct (enter_facts _ _ _ _ EN) as (ET & IM & IS & _).
    exists l. rewrite (close_trace _ _ _ _ _ _ CL), T, ET. split; [reflexivity|]. eapply Forall_impl; [|exact F]. intros (((n, m), mu), sp) (A & B). split; eapply incl_tran; eassumption. }
  induction c as [n|set|a IHa b IHb| | | |k body IH|k taken body IH]; intros e o e' H; try (cbn [eval] in H; injection H as <- <-; exists []; rewrite app_nil_r; split; [reflexivity|constructor]).
  - cbn [eval] in H. injection H as <- <-. eexists. split; [reflexivity|]. constructor; [split; apply incl_refl|constructor].
  - cbn [eval] in H. destruct (eval a e) as [(o1, e1)|] eqn:E; [|discriminate H]. destruct (IHa _ _ _ E) as (l & T & F). destruct o1; try (injection H as <- <-; exists l; tauto).
    destruct (IHb _ _ _ H) as (l' & T' & F'). exists (l ++ l'). rewrite T', T, app_assoc. split; [reflexivity|]. apply Forall_app. split; [exact F|]. eapply Forall_impl; [|exact F'].
    destruct (eval_kept _ _ _ _ E) as (M & S). intros (((n, m), mu), sp). unfold saw. rewrite M by (split; discriminate). rewrite S by tauto. tauto.
  - destruct (section_inv _ k body e o e' (or_introl eq_refl) H) as [(-> & _)|(t & e1 & EN & CL)]; [exists []; rewrite app_nil_r; split; [reflexivity|constructor]|]. eapply SE; eassumption.
  - destruct (section_inv _ k body e o e' (or_intror (ex_intro _ taken eq_refl)) H) as [(-> & _)|(t & e1 & EN & CL)]; [exists []; rewrite app_nil_r; split; [reflexivity|constructor]|]. eapply SE; eassumption.
Qed.
Lemma eval_blocked : forall c e o e', untouched c -> possible (mask e) -> eval c e = Some (o, e') -> exists l, trace e' = trace e ++ l /\ Forall (blocked e) l.
Proof.
  assert (SE : forall k (body : code), (forall e o e', untouched body -> possible (mask e) -> eval body e = Some (o, e') -> exists l, trace e' = trace e ++ l /\ Forall (blocked e) l) ->
    forall taken e e1 o e', untouched body -> possible (mask e) -> enter k taken e = Entered e1 -> close k (mask e) (eval body e1) = Some (o, e') -> exists l, trace e' = trace e ++ l /\ Forall (blocked e) l).
  { intros k body IH taken e e1 o e' U P EN CL. destruct (eval body e1) as [(o1, e2)|] eqn:EB; [|discriminate CL]. destruct (enter_facts _ _ _ _ EN) as (ET & IM & IS & KE & PO & _). destruct (IH _ _ _ U (PO P) EB) as (l & T & F).
    exists l. rewrite (close_trace _ _ _ _ _ _ CL), T, ET. split; [reflexivity|]. eapply Forall_impl; [|exact F]. intros (((n, m), mu), sp) A s S. apply A, KE, S. }
  induction c as [n|set|a IHa b IHb| | | |k body IH|k taken body IH]; intros e o e' U P H; try (cbn [eval] in H; injection H as <- <-; exists []; rewrite app_nil_r; split; [reflexivity|constructor]).
  - cbn [eval] in H. injection H as <- <-. eexists. split; [reflexivity|]. constructor; [intros s S; exact S|constructor].
  - cbn [eval] in H. destruct U as (Ua & Ub). destruct (eval a e) as [(o1, e1)|] eqn:E; [|discriminate H]. destruct (IHa _ _ _ Ua P E) as (l & T & F). destruct o1; try (injection H as <- <-; exists l; tauto).
    pose proof (scoped_mask _ _ _ _ (untouched_scoped _ Ua) P E ltac:(split; discriminate)) as M. assert (P1 : possible (mask e1)) by (rewrite M; exact P).
    destruct (IHb _ _ _ Ub P1 H) as (l' & T' & F'). exists (l ++ l'). rewrite T', T, app_assoc. split; [reflexivity|]. apply Forall_app. split; [exact F|]. eapply Forall_impl; [|exact F'].
    intros (((n, m), mu), sp). unfold blocked. rewrite M. tauto.
  - destruct (section_inv _ k body e o e' (or_introl eq_refl) H) as [(-> & _)|(t & e1 & EN & CL)]; [exists []; rewrite app_nil_r; split; [reflexivity|constructor]|]. eapply SE; eassumption.
  - destruct (section_inv _ k body e o e' (or_intror (ex_intro _ taken eq_refl)) H) as [(-> & _)|(t & e1 & EN & CL)]; [exists []; rewrite app_nil_r; split; [reflexivity|constructor]|]. eapply SE; eassumption.
Qed.
