(** Property C102. *)

From Coq Require Import ZArith List Bool Arith Lia.
From Verif Require Import CInt CUtil FramertoolModel FramertoolSpec FramertoolProofs.
Import ListNotations.
Local Open Scope Z_scope.

(** Whatever is read, however long the lines, whatever octets are in them, and whatever size
    the buffer has (a size of zero is refused, bin/framertool.c:158): nothing is stored outside of it, and each line is sent as
    one frame, in order, with its newline, cut to the size of the buffer; up to the first
    that cannot be sent, after which none is. *)
Theorem C102_lines : forall sends memory chs, memory <> [] -> exists s, main sends memory chs = Some s /\
  frames s = until_failure sends 0 (map (frame_of (length memory)) (fst (lines chs))).
Proof.
  intros sends memory chs N. assert (R : (0 < length memory)%nat) by (destruct memory; [congruence|cbn; lia]).
  destruct (input_ok sends (length memory) R chs [] (start memory)) as (s & E & F); [|constructor|reflexivity|].
  - unfold holds, start. cbn [line here total]. rewrite firstn_nil. cbn. rewrite Nat.min_0_r. repeat split; lia.
  - exists s. split; [exact E|exact F].
Qed.
Print Assumptions C102_lines.

(** So no frame is larger than the buffer; and lines that fit, and can be sent, are sent
    entirely: joined, the frames are what was read, up to the last newline. *)
Theorem C102_whole : forall sends memory chs, memory <> [] -> exists s, main sends memory chs = Some s /\
  Forall (fun f => (length f <= length memory)%nat) (frames s) /\
  ((forall k, sends k = true) -> Forall (fun l => (length l < length memory)%nat) (fst (lines chs)) -> chs = concat (frames s) ++ snd (lines chs)).
Proof.
  intros sends memory chs N. destruct (C102_lines sends memory chs N) as (s & E & F). exists s. split; [exact E|]. rewrite F.
  assert (R : (0 < length memory)%nat) by (destruct memory; [congruence|cbn; lia]). split.
  - clear F E. generalize O. induction (fst (lines chs)) as [|l ls IH]; intros k; cbn [map until_failure]; constructor.
    + unfold frame_of. rewrite app_length, firstn_length. cbn [length]. lia.
    + destruct (sends k); [apply IH|constructor].
  - intros S Fit. assert (U : forall fs k, until_failure sends k fs = fs) by (induction fs as [|f fs IH]; intros k; [reflexivity|]; cbn; rewrite S, IH; reflexivity). rewrite U. clear U F E s.
    assert (J : forall chs, chs = concat (map (fun l => l ++ [10]) (fst (lines chs))) ++ snd (lines chs)).
    { clear. induction chs as [|c chs IH]; [reflexivity|]. cbn [lines]. destruct (lines chs) as (ls, rest). cbn [fst snd] in IH. destruct (Z.eqb_spec c 10) as [->|NE]; [cbn; rewrite <- IH; reflexivity|].
      destruct ls as [|l ls]; cbn [fst snd map concat app] in *; rewrite IH; reflexivity. }
    replace (map (frame_of (length memory)) (fst (lines chs))) with (map (fun l => l ++ [10]) (fst (lines chs))); [apply J|].
    apply map_ext_in. intros l Hl. rewrite Forall_forall in Fit. specialize (Fit l Hl). unfold frame_of. rewrite firstn_all2 by lia. reflexivity.
Qed.
Print Assumptions C102_whole.

(** What is after the last newline is never sent, although the input has ended; and of a line
    that is too long the rest is lost silently. *)
Theorem C102_rest_refuted : forall sends memory chs, memory <> [] -> Forall (fun c => c <> 10) chs -> exists s, main sends memory chs = Some s /\ frames s = [].
Proof.
  intros sends memory chs N F. destruct (C102_lines sends memory chs N) as (s & E & Fs). exists s. split; [exact E|]. rewrite Fs.
  replace chs with (chs ++ []) by apply app_nil_r. rewrite (lines_prefix chs [] F). reflexivity.
Qed.
Print Assumptions C102_rest_refuted.

(** Three lines and a rest with a buffer of four octets; the second cannot be sent. *)
Example C102_example : lines [1; 2; 10; 3; 4; 5; 6; 7; 10; 10; 8] = ([[1; 2]; [3; 4; 5; 6; 7]; []], [8]) /\
  option_map frames (main (fun _ => true) [0; 0; 0; 0] [1; 2; 10; 3; 4; 5; 6; 7; 10; 10; 8]) = Some [[1; 2; 10]; [3; 4; 5; 10]; [10]] /\
  option_map frames (main (fun k => Nat.eqb k 0) [0; 0; 0; 0] [1; 2; 10; 3; 4; 5; 6; 7; 10; 10; 8]) = Some [[1; 2; 10]; [3; 4; 5; 10]].
Proof. repeat split. Qed.
