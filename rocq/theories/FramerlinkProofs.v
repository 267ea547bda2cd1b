(** Proofs about the output of the framer utility. *)

From Coq Require Import ZArith List Bool Lia.
From Verif Require Import CInt ChecksumModel ChecksumSpec FramerModel FramerSpec
  FramerProofs FramerProofs2 FramerProofs3 FramerProofs4 FramerlinkModel FramerlinkSpec.
Import ListNotations.
Local Open Scope Z_scope.

Lemma inside_output writes f w g rest n out : inside f w g -> output writes f (tokens w ++ rest) n out = output writes g rest n out.
Proof.
  induction 1 as [|f c g w f' M L I IH]; [reflexivity|]. cbn [tokens map app output]. rewrite (reader_step_live _ _ _ M L). cbn. exact IH.
Qed.

(** One frame. *)
Lemma output_frame writes f gen d wire gen' rest n out : inv f -> st f = RESET -> d <> [] -> octets d -> Z.of_nat (length d) <= size f -> writer gen d = Some (wire, gen') -> writes n = true ->
  exists f', output writes f (tokens wire ++ rest) n out = output writes (reset f') rest (S n) (out ++ [d]) /\ inv (reset f') /\ size (reset f') = size f.
Proof.
  intros I R NE O S W Wr. destruct (writer_valid gen d wire gen' O W) as (V & _ & Len). pose proof (wire_length gen d wire gen' O W) as WL.
  destruct (frame_received f wire d gen' (proj1 I) (proj2 (proj2 I)) (or_introl R) V S) as (b & g & f' & -> & Ins & M & Sh & K & C & F & L & _ & _ & T & _).
  specialize (T ltac:(rewrite R; discriminate)). rewrite Z.mod_small in T by lia. exists f'. split; [|split].
  - unfold tokens. rewrite map_app, <- app_assoc. fold (tokens b). rewrite (inside_output writes f b g _ n out Ins). cbn [map app output]. unfold reader_step. rewrite M, C.
    assert (0 < Z.of_nat (length d)) by (destruct d; [congruence|cbn [length]; lia]).
    destruct (Z.eqb_spec (length_ f') 0); [lia|]. destruct (Z.eqb_spec (total f') 0); [lia|]. destruct (Z.ltb_spec (total f') 0); [lia|]. rewrite Wr. unfold getlength, iscomplete. rewrite C, L, Nat2Z.id, F. reflexivity.
  - apply reset_inv. split; [exact Sh|]. split; [left; rewrite C; exact Logic.I|]. rewrite T. unfold is_u64. lia.
  - destruct K as (K & _). exact K.
Qed.

Lemma output_frames writes more : (forall k, writes k = true) -> forall ds f gen wires gen' n out, inv f -> st f = RESET -> Forall (fun d => d <> [] /\ octets d /\ Z.of_nat (length d) <= size f) ds ->
  transmit gen ds = Some (wires, gen') -> exists f' n', output writes f (tokens (concat wires) ++ more) n out = output writes f' more n' (out ++ ds) /\ inv f'.
Proof.
  intros Wr. induction ds as [|d ds IH]; intros f gen wires gen' n out I R F T; cbn [transmit] in T.
  - injection T as <- <-. exists f, n. rewrite app_nil_r. split; [reflexivity|exact I].
  - destruct (writer gen d) as [(wire, g1)|] eqn:W; [|discriminate]. destruct (transmit g1 ds) as [(ws, g2)|] eqn:T1; [|discriminate]. injection T as <- <-.
    inversion_clear F as [|? ? (NE & O & S) F']. cbn [concat]. unfold tokens. rewrite map_app, <- app_assoc. fold (tokens wire). fold (tokens (concat ws)).
    destruct (output_frame writes f gen d wire g1 (tokens (concat ws) ++ more) n out I R NE O S W (Wr n)) as (f1 & E & I1 & S1). rewrite E.
    destruct (IH (reset f1) g1 ws g2 (Datatypes.S n) (out ++ [d]) I1 eq_refl) as (f' & n' & E' & I'); [rewrite S1; exact F'|exact T1|]. exists f', n'. rewrite E', <- app_assoc. split; [reflexivity|exact I'].
Qed.

Lemma output_end writes f rest n out : inv f -> exists f', output writes f (None :: rest) n out = Some (f', out).
Proof.
  intros I. cbn [output]. unfold reader_step. destruct (step_inv f None I Logic.I) as (f' & M & _). rewrite M.
  assert (st f' = FINAL) as ->. { revert M. unfold machine. intros M. injection M as <-. reflexivity. }
  cbn. eauto.
Qed.

Lemma output_safe writes ts : forall f n out, inv f -> Forall token_ok ts -> exists f' out', output writes f ts n out = Some (f', out').
Proof.
  induction ts as [|t ts IH]; intros f n out I F; [cbn; eauto|]. inversion_clear F as [|? ? T F']. cbn [output].
  destruct (step_inv f t I T) as (f1 & M & I1 & _).
  assert (X : exists f2 r, reader_step f t = Some (f2, r) /\ inv f2). { unfold reader_step. rewrite M. destruct (st f1); try destruct (length_ f1 =? 0); do 2 eexists; (split; [reflexivity|]); first [exact I1|apply reset_inv, I1]. }
  destruct X as (f2 & r & -> & I2). destruct (r =? 0); [apply IH; assumption|]. destruct (r <? 0); [eauto|]. destruct (writes n); apply IH; try assumption. apply reset_inv, I2.
Qed.

Lemma transmit_some ds : forall gen, Forall (fun d => Z.of_nat (length d) <= 65535) ds -> exists wires gen', transmit gen ds = Some (wires, gen').
Proof.
  induction ds as [|d ds IH]; intros gen F; cbn [transmit]; [eauto|]. inversion_clear F as [|? ? L F']. destruct (proj2 (writer_total gen d) L) as (w & g & ->).
  destruct (IH g F') as (ws & g' & ->). eauto.
Qed.
