From Coq Require Import ZArith List Bool Lia Arith.
From Verif Require Import CInt CUtil DiskModel ObservationModel ObservationSpec ObservationProofs.
Import ListNotations.
Local Open Scope Z_scope.

(** * Each step of the model is one, or none, of the reference *)

Definition next (len : Z) (w : world) (r : ref) (w' : world) : Prop :=
  exists e r', history w' = history w ++ e /\ r_run len r e = Some r' /\ inv len w' r'.
Lemma next_none len w r t d p : inv len (goes w t d p []) (upd r t (target r) (status_of r t)) -> next len w r (goes w t d p []).
Proof.
  intros V. exists [], r. split; [reflexivity|]. split; [reflexivity|]. destruct V as (V1 & V2 & V3 & V4 & V5 & V6 & V7). repeat (split; [assumption|]). split; [|exact V7]. intros u. specialize (V6 u). cbn [status_of upd] in V6. destruct (Nat.eqb_spec u t) as [E|]; [rewrite E in *|]; exact V6.
Qed.
Lemma next_one len w r t d p e s : (r_step len r (t, e) = Some (upd r t (target r) s)) -> inv len (goes w t d p [e]) (upd r t (target r) s) -> next len w r (goes w t d p [e]).
Proof. intros S V. exists [(t, e)], (upd r t (target r) s). split; [reflexivity|]. split; [|exact V]. cbn [r_run]. rewrite S. reflexivity. Qed.

Lemma create_facts d n d' i : d_create d n = Some (d', i) -> entry d n = None /\ i = spare d /\ spare d' = spare d + 1 /\ (forall m, entry d' m = if m =? n then Some i else entry d m) /\ (forall j, data d' j = if j =? i then [] else data d j).
Proof. unfold d_create. intros E. destruct (entry d n); [discriminate|]. injection E as <- <-. cbn. auto. Qed.

Lemma inv_step len w r t a w' : inv len w r -> step len w t a = Some w' -> next len w r w'.
Proof.
  intros V S. pose proof V as (V1 & V2 & V3 & V4 & V5 & V6 & V7). pose proof (V2 t) as O. pose proof (V4 t) as C. pose proof (V5 t) as RE. pose proof (V6 t) as RL. unfold step in S.
  destruct (threads w t) as [| |n i|n i p g|n i p g|n i g|n i p|n i|n i p g|n i p g|n i p g|n|p c ok|i got| |] eqn:TH; cbn [owned content reads rel] in *.
  - (* Free *)
    destruct a as [c|o l|n|m| | |k| | |]; try discriminate S; [destruct c; try discriminate S| |]; try (injection S as <-).
    + apply next_one with (s := RCreating); [cbn [r_step]; rewrite RL; reflexivity|]. apply inv_pc; cbn [owned content reads rel]; auto; discriminate.
    + destruct (entry (files w) TARGET) as [i|] eqn:E; injection S as <-.
      * assert (TD : target r = Some (data (files w) i)) by (rewrite <- V7; unfold target_data; rewrite E; reflexivity).
        apply next_one with (s := RReading (target r)); [cbn [r_step]; rewrite RL; reflexivity|]. apply inv_pc; cbn [owned content reads rel]; auto; [discriminate| |congruence]. cbn [files goes]. split; [apply (V1 TARGET), E|]. split; [reflexivity|].
        intros u n Q. destruct (Nat.eq_dec u t) as [->|NE]; [rewrite goes_same in Q; discriminate|]. rewrite (goes_other w t _ _ _ u NE) in Q. destruct (V2 u n i Q) as (_ & _ & Q3). congruence.
      * exists [(t, Opened); (t, Got None)], (upd (upd r t (target r) (RReading (target r))) t (target r) RFree). split; [reflexivity|].
        assert (TD : target r = None) by (rewrite <- V7; unfold target_data; rewrite E; reflexivity). split.
        { cbn [r_run r_step]. rewrite RL. cbn [moves bind]. cbn [status_of]. rewrite Nat.eqb_refl, TD. destruct (same_data None None); [reflexivity|congruence]. }
        assert (W : inv len (goes w t (files w) Free [Opened; Got None]) (upd r t (target r) RFree)) by (apply inv_pc; cbn [owned content reads rel]; auto; discriminate).
        destruct W as (W1 & W2 & W3 & W4 & W5 & W6 & W7). repeat (split; [assumption|]). split; [|exact W7]. intros u. specialize (W6 u). cbn [status_of upd] in *. destruct (Nat.eqb_spec u t); exact W6.
    + apply next_none, inv_pc; cbn [owned content reads rel]; auto; discriminate.
  - (* Making *)
    destruct a as [c|o l|n|m| | |k| | |]; try discriminate S; [|injection S as <-..].
    + destruct (create_accepts len && negb (n =? TARGET)) eqn:G; [|discriminate]. apply andb_true_iff in G as (_ & G). apply negb_true_iff, Z.eqb_neq in G. destruct (d_create (files w) n) as [(d', i)|] eqn:D; [|discriminate]. injection S as <-.
      destruct (create_facts _ _ _ _ D) as (D1 & D2 & D3 & D4 & D5). apply next_none, inv_goes; cbn [owned content reads rel]; auto.
      * intros m j. rewrite D4, D3. destruct (m =? n); [intros E; injection E as <-; lia|intros E; apply V1 in E; lia].
      * lia.
      * intros u m j NE Q. destruct (V2 u m j Q) as (Q1 & Q2 & Q3). assert (J : j < spare (files w)) by (apply (V1 m), Q1). split; [rewrite D4; destruct (Z.eqb_spec m n); [congruence|exact Q1]|]. split; [rewrite D4; destruct (Z.eqb_spec TARGET n); [congruence|exact Q3]|]. rewrite D5. destruct (Z.eqb_spec j i); [lia|reflexivity].
      * intros j J _. rewrite D5. destruct (Z.eqb_spec j i); [lia|reflexivity].
      * intros m j Q. injection Q as <- <-. split; [rewrite D4, Z.eqb_refl; reflexivity|]. split; [exact G|]. split; [|right; split; [exact D1|lia]]. rewrite D4. destruct (Z.eqb_spec TARGET n); [congruence|]. intros E. apply V1 in E. lia.
      * rewrite D5, Z.eqb_refl. reflexivity.
      * rewrite <- V7. unfold target_data. rewrite D4. destruct (Z.eqb_spec TARGET n); [congruence|]. destruct (entry (files w) TARGET) as [j|] eqn:E; [|reflexivity]. cbn. f_equal. rewrite D5. apply V1 in E. destruct (Z.eqb_spec j i); [lia|reflexivity].
    + apply next_none, inv_pc; cbn [owned content reads rel]; auto; discriminate.
    + apply next_none, inv_pc; cbn [owned content reads rel]; auto; discriminate.
  - (* Made *)
    destruct a as [c|o l|m|m| | |k| | |]; try discriminate S; injection S as <-.
    + apply next_none, inv_pc; cbn [owned content reads rel]; auto. intros m j Q. rewrite TH. exact Q.
    + apply next_none, inv_pc; cbn [owned content reads rel]; auto; discriminate.
    + apply next_none, inv_pc; cbn [owned content reads rel]; auto; discriminate.
  - (* Open *)
    destruct a as [c|o l|m|m| | |k| | |]; try discriminate S; [destruct c; try discriminate S|destruct l as [|x l]; [discriminate S|]| |]; try (injection S as <-).
    + destruct (commit_accepts len) eqn:CA; injection S as <-; (apply next_one with (s := RCommitting g); [cbn [r_step]; rewrite RL; reflexivity|]); apply inv_pc; cbn [owned content reads rel]; auto; intros m j Q; rewrite TH; exact Q.
    + destruct (commit_accepts len) eqn:CA; injection S as <-; (apply next_one with (s := RChecking g); [cbn [r_step]; rewrite RL; reflexivity|]); apply inv_pc; cbn [owned content reads rel]; auto; intros m j Q; rewrite TH; exact Q.
    + apply next_one with (s := RDiscarding); [cbn [r_step]; rewrite RL; reflexivity|]. apply inv_pc; cbn [owned content reads rel]; auto. intros m j Q. rewrite TH. exact Q.
    + apply next_one with (s := ROpen (put o (x :: l) g)); [cbn [r_step]; rewrite RL; reflexivity|]. apply inv_pc; cbn [owned content reads rel]; auto; [intros m j Q; rewrite TH; exact Q|]. rewrite flushed_snoc, C. reflexivity.
    + destruct (transfers (files w) i p k) as [(d', p')|] eqn:T; [|discriminate]. cbn [bind] in S. injection S as <-. pose proof (transfers_ok _ _ _ _ _ _ T) as (_ & _ & _ & T4).
      apply next_none. eapply inv_transfers; [exact V|exact T|exact TH|reflexivity|reflexivity| |discriminate|exact RL]. cbn [content]. congruence.
    + apply next_none, inv_pc; cbn [owned content reads rel]; auto; discriminate.
  - (* Closing *)
    destruct a as [c|o l|m|m| | |k| | |]; try (destruct p; discriminate S).
    + destruct p; [|discriminate S]. injection S as <-. apply next_none, inv_pc; cbn [owned content reads rel]; auto. intros m j Q. rewrite TH. exact Q.
    + assert (S2 : w' = goes w t (files w) (Leaving (Stale n) COMMIT false) []) by (destruct p; congruence). subst w'. apply next_none, inv_pc; cbn [owned content reads rel]; auto; [discriminate|]. destruct RL. eauto.
    + assert (S2 : (let* '(d', p) := transfers (files w) i p k in Some (goes w t d' (Closing n i p g) [])) = Some w') by (destruct p; exact S). clear S. destruct (transfers (files w) i p k) as [(d', p')|] eqn:T; [|discriminate]. cbn [bind] in S2. injection S2 as <-. pose proof (transfers_ok _ _ _ _ _ _ T) as (_ & _ & _ & T4).
      apply next_none. eapply inv_transfers; [exact V|exact T|exact TH|reflexivity|reflexivity| |discriminate|exact RL]. cbn [content]. congruence.
    + assert (S2 : w' = goes w t (files w) Dead []) by (destruct p; congruence). subst w'. apply next_none, inv_pc; cbn [owned content reads rel]; auto; discriminate.
  - (* Renaming *)
    destruct RL as (RL & CA). destruct (O n i eq_refl) as (O1 & O2 & O3).
    destruct a as [c|o l|m|m| | |k| | |]; try discriminate S; [|injection S as <-..].
    + assert (R : exists d', d_rename (files w) n TARGET = Some d' /\ d' = set_entry (set_entry (files w) TARGET (Some i)) n None).
      { unfold d_rename. rewrite O1. destruct (entry (files w) TARGET) as [j|]; [|eauto]. destruct (Z.eqb_spec i j); [congruence|eauto]. }
      destruct R as (d' & R & ED). rewrite R in S. injection S as <-.
      assert (ET : entry d' TARGET = Some i) by (rewrite ED; cbn [entry set_entry]; destruct (Z.eqb_spec TARGET n); [congruence|]; rewrite Z.eqb_refl; reflexivity).
      assert (EM : forall m, m <> TARGET -> entry d' m = if m =? n then None else entry (files w) m) by (intros m NM; rewrite ED; cbn [entry set_entry]; destruct (m =? n); [reflexivity|]; destruct (Z.eqb_spec m TARGET); [contradiction|reflexivity]).
      assert (DD : data d' = data (files w) /\ spare d' = spare (files w)) by (rewrite ED; split; reflexivity). destruct DD as (DD1 & DD2).
      exists [(t, Committed g)], (upd r t (Some g) RCommitted). split; [reflexivity|]. split.
      { cbn [r_run r_step]. rewrite RL. destruct (list_eq_dec Z.eq_dec g g); [reflexivity|congruence]. }
      apply inv_goes; cbn [owned content reads rel]; auto.
      * intros m j. rewrite DD2. destruct (Z.eq_dec m TARGET) as [->|NM]; [rewrite ET; intros E; injection E as <-; apply (V1 n), O1|]. rewrite (EM m NM). destruct (m =? n); [discriminate|apply V1].
      * lia.
      * intros u m j NE Q. destruct (V2 u m j Q) as (Q1 & Q2 & Q3). destruct (V3 u t m j n i Q ltac:(rewrite TH; reflexivity) NE) as (N1 & N2). rewrite (EM m Q2), (proj2 (Z.eqb_neq m n) N1), ET, DD1. split; [exact Q1|]. split; [congruence|reflexivity].
      * intros j _ _. rewrite DD1. reflexivity.
      * discriminate.
      * unfold target_data. rewrite ET, DD1. cbn. congruence.
    + apply next_none, inv_pc; cbn [owned content reads rel]; auto; [discriminate|]. eauto.
    + apply next_none, inv_pc; cbn [owned content reads rel]; auto; discriminate.
  - (* Dropping *)
    destruct a as [c|o l|m|m| | |k| | |]; try (destruct p; discriminate S).
    + destruct p; [|discriminate S]. injection S as <-. apply next_none, inv_pc; cbn [owned content reads rel]; auto. intros m j Q. rewrite TH. exact Q.
    + assert (S2 : w' = goes w t (files w) (Leaving (Stale n) DISCARD false) []) by (destruct p; congruence). subst w'. apply next_none, inv_pc; cbn [owned content reads rel]; auto; discriminate.
    + assert (S2 : (let* '(d', p) := transfers (files w) i p k in Some (goes w t d' (Dropping n i p) [])) = Some w') by (destruct p; exact S). clear S. destruct (transfers (files w) i p k) as [(d', p')|] eqn:T; [|discriminate]. cbn [bind] in S2. injection S2 as <-.
      apply next_none. eapply inv_transfers; [exact V|exact T|exact TH|reflexivity|reflexivity|exact I|discriminate|exact RL].
    + assert (S2 : w' = goes w t (files w) Dead []) by (destruct p; congruence). subst w'. apply next_none, inv_pc; cbn [owned content reads rel]; auto; discriminate.
  - (* Unlinking *)
    destruct (O n i eq_refl) as (O1 & O2 & O3). destruct a as [c|o l|m|m| | |k| | |]; try discriminate S; [|injection S as <-..].
    + unfold d_unlink in S. rewrite O1 in S. injection S as <-. apply next_none, inv_goes; cbn [owned content reads rel set_entry entry data spare]; auto.
      * intros m j. cbn [set_entry entry spare]. destruct (m =? n); [discriminate|apply V1].
      * lia.
      * intros u m j NE Q. destruct (V2 u m j Q) as (Q1 & Q2 & Q3). destruct (V3 u t m j n i Q ltac:(rewrite TH; reflexivity) NE) as (N1 & N2). rewrite (proj2 (Z.eqb_neq m n) N1). destruct (Z.eqb_spec TARGET n); [congruence|]. auto.
      * discriminate.
      * rewrite <- V7. unfold target_data. cbn [set_entry entry data]. destruct (Z.eqb_spec TARGET n); [congruence|]. reflexivity.
    + apply next_none, inv_pc; cbn [owned content reads rel]; auto; discriminate.
    + apply next_none, inv_pc; cbn [owned content reads rel]; auto; discriminate.
  - (* Stamping *)
    destruct a as [c|o l|m|m| | |k| | |]; try discriminate S; injection S as <-; apply next_none, inv_pc; cbn [owned content reads rel]; auto; try discriminate; intros m j Q; rewrite TH; exact Q.
  - (* Flushing *)
    destruct a as [c|o l|m|m| | |k| | |]; try (destruct p; discriminate S).
    + destruct p; [|discriminate S]. injection S as <-. apply next_none, inv_pc; cbn [owned content reads rel]; auto. intros m j Q. rewrite TH. exact Q.
    + assert (S2 : w' = goes w t (files w) (Linking n i p g) []) by (destruct p; congruence). subst w'. apply next_none, inv_pc; cbn [owned content reads rel]; auto. intros m j Q. rewrite TH. exact Q.
    + assert (S2 : (let* '(d', p) := transfers (files w) i p k in Some (goes w t d' (Flushing n i p g) [])) = Some w') by (destruct p; exact S). clear S. destruct (transfers (files w) i p k) as [(d', p')|] eqn:T; [|discriminate]. cbn [bind] in S2. injection S2 as <-. pose proof (transfers_ok _ _ _ _ _ _ T) as (_ & _ & _ & T4).
      apply next_none. eapply inv_transfers; [exact V|exact T|exact TH|reflexivity|reflexivity| |discriminate|exact RL]. cbn [content]. congruence.
    + assert (S2 : w' = goes w t (files w) Dead []) by (destruct p; congruence). subst w'. apply next_none, inv_pc; cbn [owned content reads rel]; auto; discriminate.
  - (* Linking *)
    destruct (O n i eq_refl) as (O1 & O2 & O3). destruct a as [c|o l|m|m| | |k| | |]; try discriminate S; [|injection S as <-..].
    + destruct (Z.eqb_spec m TARGET) as [|NM]; [discriminate|]. unfold d_link in S. rewrite O1 in S. destruct (entry (files w) m) as [j0|] eqn:EM; injection S as <-.
      * apply next_none, inv_pc; cbn [owned content reads rel]; auto. intros q j Q. rewrite TH. exact Q.
      * apply next_one with (s := RChecked g); [cbn [r_step]; rewrite RL; reflexivity|]. apply inv_goes; cbn [owned content reads rel set_entry entry data spare]; auto.
        -- intros q j. cbn [set_entry entry spare]. destruct (q =? m); [intros E; injection E as <-; apply (V1 n), O1|apply V1].
        -- lia.
        -- intros u q j NE Q. destruct (V2 u q j Q) as (Q1 & Q2 & Q3). destruct (Z.eqb_spec q m); [congruence|]. destruct (Z.eqb_spec TARGET m); [congruence|]. auto.
        -- intros q j Q. injection Q as <- <-. destruct (Z.eqb_spec n m); [congruence|]. destruct (Z.eqb_spec TARGET m); [congruence|]. rewrite TH. auto.
        -- rewrite <- V7. unfold target_data. cbn [set_entry entry data]. destruct (Z.eqb_spec TARGET m); [congruence|]. reflexivity.
    + apply next_none, inv_pc; cbn [owned content reads rel]; auto. intros q j Q. rewrite TH. exact Q.
    + apply next_none, inv_pc; cbn [owned content reads rel]; auto; discriminate.
  - (* Stale *)
    destruct a as [c|o l|m|m| | |k| | |]; try discriminate S; [destruct c|injection S as <-..].
    + injection S as <-. apply next_one with (s := RCreating); [cbn [r_step]; rewrite RL; reflexivity|]. apply inv_pc; cbn [owned content reads rel]; auto; discriminate.
    + injection S as <-. apply next_none, inv_pc; cbn [owned content reads rel]; auto; discriminate.
    + injection S as <-. apply next_none, inv_pc; cbn [owned content reads rel]; auto; discriminate.
    + injection S as <-. apply next_none, inv_pc; cbn [owned content reads rel]; auto; discriminate.
    + apply next_none, inv_pc; cbn [owned content reads rel]; auto; discriminate.
    + apply next_none, inv_pc; cbn [owned content reads rel]; auto; discriminate.
  - (* Leaving *)
    destruct a as [c0|o l|m|m| | |k| | |]; try discriminate S; injection S as <-.
    + assert (ST : exists s, r_step len r (t, Returned c ok) = Some (upd r t (target r) s) /\ rel len (files w) p s /\ (forall i got, p <> Reading i got)).
      { destruct c, ok, p; try contradiction; cbn [r_step]; try (destruct RL as (RL & CA)); try (destruct RL as (g & RL)); rewrite RL; eexists; (split; [reflexivity|]); (split; [|discriminate]); cbn [rel]; try rewrite CA; reflexivity. }
      destruct ST as (s & ST & RS & NR). apply next_one with (s := s); [exact ST|]. apply inv_pc; auto; [|destruct p; try exact I; destruct (NR i got eq_refl)]. intros m j Q. rewrite TH. exact Q.
    + apply next_none, inv_pc; cbn [owned content reads rel]; auto; discriminate.
  - (* Reading *)
    destruct RE as (R1 & R2 & R3). destruct a as [c|o l|m|m| | |k| | |]; try discriminate S.
    + destruct (length (data (files w) i) <=? length got)%nat eqn:G; [|discriminate]. apply Nat.leb_le in G. injection S as <-. rewrite firstn_all2 in R2 by exact G.
      apply next_one with (s := RFree); [|apply inv_pc; cbn [owned content reads rel]; auto; discriminate]. cbn [r_step]. rewrite RL, R2. destruct (same_data (Some (data (files w) i)) (Some (data (files w) i))); [reflexivity|congruence].
    + destruct ((0 <? k) && (k <=? length (skipn (length got) (data (files w) i))))%nat; [|discriminate]. injection S as <-. apply next_none, inv_pc; cbn [owned content rel]; auto; [discriminate|]. cbn [reads files goes]. split; [exact R1|]. split; [apply more_read, R2|].
      intros u n Q. destruct (Nat.eq_dec u t) as [->|NE]; [rewrite goes_same in Q; discriminate|rewrite (goes_other w t _ _ _ u NE) in Q; exact (R3 u n Q)].
    + injection S as <-. apply next_none, inv_pc; cbn [owned content reads rel]; auto; discriminate.
  - discriminate.
  - discriminate.
Qed.
