(** Proofs about the input of the framer utility. *)

From Coq Require Import ZArith List Bool Arith Lia.
From Verif Require Import CInt CUtil FramertoolModel FramertoolSpec.
Import ListNotations.
Local Open Scope Z_scope.

Lemma put_ok : forall l i x, (i < length l)%nat -> exists l', put l i x = Some l' /\ length l' = length l /\ firstn (S i) l' = firstn i l ++ [x].
Proof.
  induction l as [|y l IH]; intros i x H; cbn [length] in H; [lia|]. destruct i as [|i]; cbn [put].
  - exists (x :: l). repeat split.
  - destruct (IH i x) as (l' & E & L & F); [lia|]. rewrite E. cbn [bind]. exists (y :: l'). split; [reflexivity|]. cbn [length]. split; [lia|].
    change (firstn (S (S i)) (y :: l')) with (y :: firstn (S i) l'). rewrite F. reflexivity.
Qed.

(** What was read of the line is in the buffer. *)
Definition holds (room : nat) (s : tool) (l : list Z) : Prop :=
  length (line s) = room /\ here s = total s /\ (total s <= room - 1)%nat /\ firstn (total s) (line s) = firstn (room - 1) l /\ total s = Nat.min (room - 1) (length l).

Lemma store_ok room s l ch : holds room s l -> (total s < room)%nat -> exists s', store ch s = Some s' /\ length (line s') = room /\ here s' = S (total s) /\ total s' = S (total s) /\
  deveof s' = deveof s /\ frames s' = frames s /\ firstn (total s') (line s') = firstn (room - 1) l ++ [ch].
Proof.
  intros (L & H & T & F & N) R. unfold store. rewrite H. destruct (put_ok (line s) (total s) ch) as (l' & E & L' & F'); [lia|]. rewrite E. cbn [bind]. eexists. split; [reflexivity|].
  cbn [line here total deveof frames]. rewrite F', F. repeat split; lia || reflexivity.
Qed.

Lemma lines_prefix l chs : Forall (fun c => c <> 10) l -> lines (l ++ chs) = match lines chs with ([], rest) => ([], l ++ rest) | (m :: ms, rest) => ((l ++ m) :: ms, rest) end.
Proof.
  induction l as [|c l IH]; intros F; cbn [app]; [destruct (lines chs) as ([|], ?); reflexivity|]. inversion_clear F. cbn [lines]. rewrite IH by assumption.
  destruct (Z.eqb_spec c 10); [congruence|]. destruct (lines chs) as ([|], ?); reflexivity.
Qed.

Lemma input_ok sends room : (0 < room)%nat -> forall chs l s, holds room s l -> Forall (fun c => c <> 10) l -> deveof s = false ->
  exists s', input sends room chs s = Some s' /\
    frames s' = frames s ++ until_failure sends (length (frames s)) (map (frame_of room) (fst (lines (l ++ chs)))).
Proof.
  intros R. induction chs as [|ch chs IH]; intros l s H F D; cbn [input].
  - exists s. split; [reflexivity|]. rewrite (lines_prefix l [] F). cbn. rewrite app_nil_r. reflexivity.
  - rewrite D. unfold token. destruct (Z.eqb_spec ch 10) as [->|NE].
    + destruct (store_ok room s l 10 H) as (s1 & E & L1 & H1 & T1 & D1 & F1 & B1); [destruct H as (_ & _ & ? & _); lia|]. rewrite E. cbn [bind]. rewrite F1, B1.
      assert (LN : lines (l ++ 10 :: chs) = (l :: fst (lines chs), snd (lines chs))).
      { rewrite (lines_prefix l (10 :: chs) F). cbn [lines]. destruct (lines chs) as (ms, rest). cbn. rewrite app_nil_r. reflexivity. }
      rewrite LN. cbn [fst map until_failure]. fold (frame_of room l). destruct (sends (length (frames s))) eqn:Q; cbn [negb bind].
      * destruct (IH [] (Tool (line s1) 0 0 (deveof s1) (frames s ++ [frame_of room l]))) as (s' & E' & F').
        { unfold holds. cbn [line here total]. rewrite firstn_nil. cbn. rewrite Nat.min_0_r. repeat split; lia || exact L1. }
        { constructor. } { cbn. congruence. }
        exists s'. split; [exact E'|]. rewrite F'. cbn [frames app]. rewrite app_length, <- app_assoc. cbn [length app]. replace (length (frames s) + 1)%nat with (S (length (frames s))) by lia. reflexivity.
      * exists (Tool (line s1) (here s1) (total s1) true (frames s ++ [frame_of room l])). split; [destruct chs; reflexivity|reflexivity].
    + assert (F2 : Forall (fun c => c <> 10) (l ++ [ch])) by (apply Forall_app; split; [exact F|constructor; [exact NE|constructor]]).
      replace (l ++ ch :: chs) with ((l ++ [ch]) ++ chs) by (rewrite <- app_assoc; reflexivity).
      replace (below room (total s)) with (Nat.ltb (total s) (room - 1)) by (destruct room; [lia|cbn [below]; rewrite Nat.sub_succ, Nat.sub_0_r; reflexivity]).
      destruct (Nat.ltb_spec (total s) (room - 1)) as [T|T].
      * destruct (store_ok room s l ch H) as (s1 & E & L1 & H1 & T1 & D1 & F1 & B1); [lia|]. rewrite E. cbn [bind]. rewrite <- F1. apply IH; [|exact F2|congruence].
        destruct H as (_ & _ & _ & _ & N). unfold holds. rewrite B1, T1, H1, app_length. cbn [length]. split; [exact L1|]. split; [reflexivity|]. split; [lia|]. split; [|lia].
        rewrite !firstn_all2 by (rewrite ?app_length; cbn [length]; lia). reflexivity.
      * cbn [bind]. apply IH; [|exact F2|exact D]. destruct H as (L1 & H1 & T1 & B1 & N). unfold holds. rewrite app_length. cbn [length]. repeat split; try assumption; [|lia].
        rewrite B1, firstn_app. replace (room - 1 - length l)%nat with O by lia. cbn [firstn]. rewrite app_nil_r. reflexivity.
Qed.
