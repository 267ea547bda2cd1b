(** Property C102, continued: from one utility to the other. *)

From Coq Require Import ZArith List Bool Arith Lia.
From Verif Require Import CInt ChecksumModel ChecksumSpec FramerModel FramerSpec
  FramerProofs FramerProofs2 FramerProofs3 FramerProofs4 FramerlinkModel FramerlinkSpec FramerlinkProofs.
From Verif Require FramertoolModel FramertoolSpec FramertoolProps.
Import ListNotations.
Local Open Scope Z_scope.

(** Whatever datagrams are sent, one after the other, the other utility writes just those, in
    order, if they fit into its buffer, are not empty, and can be written; and nothing after
    the device has ended. *)
Theorem C102_output : forall writes memory gen ds wires gen', (forall k, writes k = true) -> Forall (fits (length memory)) ds ->
  transmit gen ds = Some (wires, gen') -> 
  (exists f, receive writes memory (tokens (concat wires)) = Some (f, ds)) /\
  (forall rest, exists f, receive writes memory (tokens (concat wires) ++ None :: rest) = Some (f, ds)).
Proof.
  intros writes memory gen ds wires gen' Wr F T. unfold receive.
  assert (I : inv (init memory (Z.of_nat (length memory)))) by (apply init_inv; lia).
  assert (F' : Forall (fun d => d <> [] /\ octets d /\ Z.of_nat (length d) <= size (init memory (Z.of_nat (length memory)))) ds).
  { eapply Forall_impl; [|exact F]. intros d (NE & O & L). cbn. repeat split; try assumption. lia. }
  split; [|intros rest].
  - destruct (output_frames writes [] Wr ds _ gen wires gen' 0%nat [] I eq_refl F' T) as (f & n & E & _). rewrite app_nil_r in E. exists f. exact E.
  - destruct (output_frames writes (None :: rest) Wr ds _ gen wires gen' 0%nat [] I eq_refl F' T) as (f & n & E & I'). rewrite E. apply output_end. exact I'.
Qed.
Print Assumptions C102_output.

(** Whatever comes from the device, and whether or not it can be written, nothing is stored
    outside of the buffer. *)
Theorem C102_output_safe : forall writes memory ts, Forall token_ok ts -> exists f out, receive writes memory ts = Some (f, out).
Proof. intros writes memory ts F. apply output_safe; [apply init_inv; lia|exact F]. Qed.
Print Assumptions C102_output_safe.

(** End to end, with any input to the one utility, and buffers that the format allows of which
    that of the receiver is no smaller: each line comes out of the other, in order, and each
    is cut to the size of the buffer of the sender; so if all fit, then what comes out is what
    went in, up to the last newline. *)
Theorem C102_end_to_end : forall writes sends memory1 memory2 gen chs,
  (forall k, writes k = true) -> (forall k, sends k = true) -> memory1 <> [] -> (length memory1 <= length memory2)%nat -> Z.of_nat (length memory1) <= 65535 -> octets chs ->
  exists s wires gen' f out, FramertoolModel.main sends memory1 chs = Some s /\ transmit gen (FramertoolModel.frames s) = Some (wires, gen') /\
    receive writes memory2 (tokens (concat wires)) = Some (f, out) /\
    out = map (FramertoolSpec.frame_of (length memory1)) (fst (FramertoolSpec.lines chs)) /\
    (Forall (fun l => (length l < length memory1)%nat) (fst (FramertoolSpec.lines chs)) -> chs = concat out ++ snd (FramertoolSpec.lines chs)).
Proof.
  intros writes sends m1 m2 gen chs Wr Se NE Le Max O. destruct (FramertoolProps.C102_lines sends m1 chs NE) as (s & E & F).
  destruct (FramertoolProps.C102_whole sends m1 chs NE) as (s' & E' & B & J). rewrite E in E'. injection E' as <-.
  assert (U : forall fs k, FramertoolSpec.until_failure sends k fs = fs) by (induction fs as [|x fs IH]; intros k; [reflexivity|]; cbn; rewrite Se, IH; reflexivity). rewrite U in F.
  assert (OL : Forall octets (fst (FramertoolSpec.lines chs)) /\ octets (snd (FramertoolSpec.lines chs))).
  { clear - O. induction O as [|c chs C O (IH1 & IH2)]; [split; constructor|]. cbn [FramertoolSpec.lines]. destruct (FramertoolSpec.lines chs) as (ls, rest). cbn [fst snd] in *.
    destruct (c =? 10); [split; [constructor; [constructor|exact IH1]|exact IH2]|]. destruct ls as [|l ls]; cbn [fst snd]; [split; [constructor|constructor; assumption]|].
    inversion_clear IH1. split; [constructor; [constructor; assumption|assumption]|exact IH2]. }
  assert (Fit : Forall (fits (length m2)) (FramertoolModel.frames s)).
  { rewrite F in *. apply Forall_map. apply Forall_map in B. destruct OL as (OL & _). rewrite Forall_forall in *. intros l Hl. specialize (B l Hl). specialize (OL l Hl). unfold fits.
    split; [unfold FramertoolSpec.frame_of; destruct (firstn _ _); discriminate|]. split; [|lia]. unfold FramertoolSpec.frame_of. apply Forall_app. split.
    - rewrite <- (firstn_skipn (length m1 - 1) l) in OL. apply Forall_app in OL. apply OL.
    - constructor; [|constructor]. unfold is_u8. lia. }
  destruct (transmit_some (FramertoolModel.frames s) gen) as (wires & gen' & T). { eapply Forall_impl; [|exact B]. cbn. intros. lia. }
  destruct (C102_output writes m2 gen (FramertoolModel.frames s) wires gen' Wr Fit T) as ((f & R) & _).
  exists s, wires, gen', f, (FramertoolModel.frames s). split; [exact E|]. split; [exact T|]. split; [exact R|]. split; [exact F|]. intros L. apply J; assumption.
Qed.
Print Assumptions C102_end_to_end.

(** False: that a failure to write loses just what could not be written. The framer is not
    reset, so that its frame is written again upon the next octet, which is lost, and so is
    the frame that the octet begins: here the first frame cannot be written at first, and
    the second never is, although the output works again. *)
Theorem C102_lost_refuted : exists writes memory gen ds wires gen' f,
  writes = (fun k => negb (Nat.eqb k 0)) /\ Forall (fits (length memory)) ds /\ ds = [[1; 10]; [2; 10]] /\
  transmit gen ds = Some (wires, gen') /\ receive writes memory (tokens (concat wires)) = Some (f, [[1; 10]]).
Proof.
  exists (fun k => negb (Nat.eqb k 0)), [0; 0; 0; 0], 0, [[1; 10]; [2; 10]]. do 3 eexists. split; [reflexivity|]. split; [|split; [reflexivity|split; [vm_compute; reflexivity|vm_compute; reflexivity]]].
  repeat constructor; try discriminate; unfold is_u8; lia.
Qed.
Print Assumptions C102_lost_refuted.

(** Two lines and a rest, of which the second is cut. *)
Example C102_link_example :
  match FramertoolModel.main (fun _ => true) [0; 0; 0] [126; 10; 17; 19; 125; 10; 8] with
  | Some s => match transmit 65535 (FramertoolModel.frames s) with
              | Some (wires, _) => option_map snd (receive (fun _ => true) [0; 0; 0] (tokens (concat wires)))
              | None => None
              end
  | None => None
  end = Some [[126; 10]; [17; 19; 10]].
Proof. vm_compute. reflexivity. Qed.
