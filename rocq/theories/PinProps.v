(** Property C78. *)

From Coq Require Import ZArith List Bool Lia String Ascii.
From Verif Require Import CInt CUtil NumberSpec OptionModel OptionProofs PinModel PinSpec PinProofs.
Import ListNotations.
Local Open Scope Z_scope.

(** A pin is exported, configured or unexported if and only if the right text was written
    to the right file and that was closed; what is opened is closed just once; and there
    are no more tries, and no more delays between them, than there may be. *)
Theorem C78_configure : forall a d root pin, 0 <= pin < 2 ^ 31 -> (List.length root <= 4000)%nat ->
  configured a 1 false (exporting root) (dec pin ++ newline) (export a d root pin) /\
  configured a 1 false (unexporting root) (dec pin ++ newline) (unexport a d root pin) /\
  configured a 1 true (unexporting root) (dec pin ++ newline) (unexport_ignore a d root pin) /\
  forall tries choice,
    let n := Z.to_nat tries in
    configured a n false (file root pin "active_low") (text (if choice =? 0 then "1" else "0") ++ newline) (active a d tries root pin choice) /\
    configured a n false (file root pin "direction") (text (if choice =? 0 then "in" else "out") ++ newline) (direction a d tries root pin choice) /\
    configured a n false (file root pin "direction") (text (if choice =? 0 then "low" else "high") ++ newline) (initialize a d tries root pin choice) /\
    configured a n false (file root pin "edge") (text (if choice =? 0 then "none" else if choice =? 1 then "rising" else if choice =? 3 then "both" else "falling") ++ newline) (edge a d tries root pin choice).
Proof.
  intros a d root pin P L. pose proof (dec_short pin P) as D.
  assert (X : filename root EXPORT pin = exporting root) by (unfold filename, EXPORT; rewrite firstn_all2; [reflexivity|rewrite app_length; cbn; lia]).
  assert (U : filename root UNEXPORT pin = unexporting root) by (unfold filename, UNEXPORT; rewrite firstn_all2; [reflexivity|rewrite app_length; cbn; lia]).
  assert (F : forall what t, t = 47 :: text what -> (List.length t <= 20)%nat -> filename root (Numbered (CLASS ++ GPIO) t) pin = file root pin what).
  { intros what t -> T. unfold filename. rewrite utoa_int by exact P. rewrite firstn_all2; [reflexivity|]. rewrite !app_length. cbn [List.length CLASS GPIO]. cbn [List.length] in T. lia. }
  unfold export, unexport, unexport_ignore, port_generic. rewrite utoa_int by exact P.
  split; [rewrite <- X; exact (configure_spec a d root EXPORT pin _ false 1 0 (proj1 P))|].
  split; [rewrite <- U; exact (configure_spec a d root UNEXPORT pin _ false 1 0 (proj1 P))|].
  split; [rewrite <- U; exact (configure_spec a d root UNEXPORT pin _ true 1 0 (proj1 P))|].
  intros tries choice. cbn zeta. unfold active, direction, initialize, edge, configure.
  split; [|split; [|split]].
  - rewrite <- (F "active_low"%string [47; 97; 99; 116; 105; 118; 101; 95; 108; 111; 119] eq_refl ltac:(cbn; lia)). replace (text (if choice =? 0 then "1" else "0") ++ newline) with (if negb (choice =? 0) then [48; 10] else [49; 10]) by (destruct (choice =? 0); reflexivity). apply configure_spec, P.
  - rewrite <- (F "direction"%string [47; 100; 105; 114; 101; 99; 116; 105; 111; 110] eq_refl ltac:(cbn; lia)). replace (text (if choice =? 0 then "in" else "out") ++ newline) with (if negb (choice =? 0) then [111; 117; 116; 10] else [105; 110; 10]) by (destruct (choice =? 0); reflexivity). apply configure_spec, P.
  - rewrite <- (F "direction"%string [47; 100; 105; 114; 101; 99; 116; 105; 111; 110] eq_refl ltac:(cbn; lia)). replace (text (if choice =? 0 then "low" else "high") ++ newline) with (if negb (choice =? 0) then [104; 105; 103; 104; 10] else [108; 111; 119; 10]) by (destruct (choice =? 0); reflexivity). apply configure_spec, P.
  - rewrite <- (F "edge"%string [47; 101; 100; 103; 101] eq_refl ltac:(cbn; lia)).
    replace (text (if choice =? 0 then "none" else if choice =? 1 then "rising" else if choice =? 3 then "both" else "falling") ++ newline)
      with (if choice =? 0 then [110; 111; 110; 101; 10] else if choice =? 1 then [114; 105; 115; 105; 110; 103; 10] else if choice =? 3 then [98; 111; 116; 104; 10] else [102; 97; 108; 108; 105; 110; 103; 10])
      by (destruct (choice =? 0); [reflexivity|]; destruct (choice =? 1); [reflexivity|]; destruct (choice =? 3); reflexivity). apply configure_spec, P.
Qed.
Print Assumptions C78_configure.

(** Negative pins are refused. *)
Theorem C78_negative : forall a d root f pin s ignore tries delay, pin < 0 ->
  configure_generic a d root f pin s ignore tries delay = (-1, []) /\ forall st fo output, pin_open st fo root pin output = (false, []).
Proof. intros a d root f pin s ignore tries delay P. unfold configure_generic, pin_open. destruct (Z.ltb_spec pin 0); [split; reflexivity|lia]. Qed.
Print Assumptions C78_negative.

(** Setting up gives a stream if and only if the pin was exported, its direction set and
    the file of its value opened, in that order and in the right mode. *)
Theorem C78_setup : forall a b st fo d tries root pin output fp t, 0 <= pin < 2 ^ 31 -> (List.length root <= 4000)%nat ->
  setup a b st fo d tries root pin output = (fp, t) ->
  let exported := fst (export a d root pin) = 0 in
  let directed := fst (direction b d tries root pin output) = 0 in
  (fp = true <-> exported /\ directed /\ st = true /\ fo = true) /\
  (fp = true -> exists t1 t2, wrote (exporting root) (dec pin ++ newline) t1 /\
     wrote (file root pin "direction") (text (if output =? 0 then "in" else "out") ++ newline) t2 /\
     t = t1 ++ t2 ++ [Stat (file root pin "value"); Fopen (file root pin "value") (if output =? 0 then 114 else 119)]).
Proof.
  intros a b st fo d tries root pin output fp t P L E. destruct (C78_configure a d root pin P L) as (X & _ & _ & _). destruct (C78_configure b d root pin P L) as (_ & _ & _ & Y).
  destruct (Y tries output) as (_ & D & _ & _). clear Y. cbn zeta. unfold setup in E. destruct (export a d root pin) as (r1 & t1). cbn [fst].
  destruct X as (R1 & _ & W1 & _). destruct (direction b d tries root pin output) as (r2 & t2). destruct D as (R2 & _ & W2 & _). cbn [fst].
  destruct (Z.ltb_spec r1 0) as [N1|N1]; [injection E as <- <-; split; [split; [discriminate|lia]|discriminate]|].
  destruct (Z.ltb_spec r2 0) as [N2|N2]; [injection E as <- <-; split; [split; [discriminate|lia]|discriminate]|].
  unfold pin_open in E. destruct (Z.ltb_spec pin 0); [lia|].
  assert (FV : filename root VALUE pin = file root pin "value").
  { unfold filename, VALUE. rewrite utoa_int by exact P. rewrite firstn_all2; [reflexivity|]. pose proof (dec_short pin P). rewrite !app_length. cbn. lia. }
  rewrite FV in E. destruct st; cbn [negb] in E; injection E as <- <-.
  - split; [split; [intros ->; repeat split; lia|tauto]|]. intros ->. exists t1, t2. split; [apply W1; lia|]. split; [apply W2; lia|]. destruct (output =? 0); reflexivity.
  - split; [split; [discriminate|intros (_ & _ & Q & _); discriminate Q]|discriminate].
Qed.
Print Assumptions C78_setup.

(** A pin no longer used is unexported and its stream closed just once, or the stream is
    left as it is. *)
Theorem C78_unused : forall a close d root pin fp t, 0 <= pin < 2 ^ 31 -> (List.length root <= 4000)%nat ->
  unused a close d root true pin = (fp, t) ->
  (fp = false <-> fst (unexport a d root pin) = 0 /\ close = true) /\
  (fp = false -> exists t1, wrote (unexporting root) (dec pin ++ newline) t1 /\ t = t1 ++ [Fclose]) /\
  (fst (unexport a d root pin) <> 0 -> t = snd (unexport a d root pin)).
Proof.
  intros a close d root pin fp t P L E. destruct (C78_configure a d root pin P L) as (_ & X & _ & _). unfold unused in E. cbn [negb] in E. destruct (unexport a d root pin) as (r & t1). cbn [fst snd].
  destruct X as (R & _ & W & _). destruct (Z.ltb_spec r 0) as [N|N].
  - injection E as <- <-. split; [split; [discriminate|lia]|]. split; [discriminate|reflexivity].
  - assert (r = 0) as -> by lia. unfold pin_close in E. cbn [negb] in E. injection E as <- <-. split; [destruct close; cbn; split; intros H; try discriminate H; [split; reflexivity|reflexivity|destruct H as (_ & H); discriminate H]|].
    split; [intros _; exists t1; split; [apply W; reflexivity|reflexivity]|congruence].
Qed.
Print Assumptions C78_unused.

(** But if closing fails the stream returned is one that was closed, and closing it, as
    it asks for, is closing it twice. *)
Theorem C78_close_refuted : exists fp t fp' t', pin_close true false = (fp, t) /\ pin_close fp true = (fp', t') /\ times is_close (t ++ t') = 2%nat.
Proof. exists true, [Fclose], false, [Fclose]. repeat split. Qed.
Print Assumptions C78_close_refuted.

(** Values: what is put is what is asked for, and what is got is what is there. *)
Theorem C78_put : forall lseek size assert, let '(r, t) := pin_put lseek size assert in
  (r = 0 <-> lseek = true /\ 0 <= size) /\ (r = 0 \/ r = -1) /\
  t = Lseek :: (if (lseek : bool) then [Write (text (if assert =? 0 then "0" else "1") ++ newline)] else []).
Proof.
  intros lseek size assert. unfold pin_put. destruct lseek; cbn [negb].
  - destruct (Z.ltb_spec size 0); (split; [split; [lia|intros (_ & Q); lia]|]); (split; [lia|]); destruct (assert =? 0); reflexivity.
  - split; [split; [lia|intros (Q & _); discriminate Q]|]. split; [lia|reflexivity].
Qed.
Print Assumptions C78_put.
Theorem C78_get : forall lseek size first, let r := fst (pin_get lseek size first) in
  (r = 0 <-> lseek = true /\ 0 < size /\ [first] = text "0") /\ (r = 1 <-> lseek = true /\ 0 < size /\ [first] = text "1") /\ (r = 0 \/ r = 1 \/ r = -1).
Proof.
  intros lseek size first. cbn zeta. unfold pin_get.
  assert (T0 : [first] = text "0" <-> first = 48) by (split; [intros Q; injection Q as ->; reflexivity|intros ->; reflexivity]).
  assert (T1 : [first] = text "1" <-> first = 49) by (split; [intros Q; injection Q as ->; reflexivity|intros ->; reflexivity]).
  rewrite T0, T1. destruct lseek; cbn [negb fst]; [|split; [split; [lia|intros (Q & _); discriminate Q]|]; split; [split; [lia|intros (Q & _); discriminate Q]|lia]].
  destruct (Z.ltb_spec size 0); [lia|]. destruct (Z.eqb_spec size 0); [lia|]. destruct (Z.eqb_spec first 48); [lia|]. destruct (Z.eqb_spec first 49); lia.
Qed.
Print Assumptions C78_get.

(** A name that is too long is cut, although the code means to refuse it: pins then share
    one file. *)
Theorem C78_length_refuted : forall root, List.length root = 4090%nat -> forall a d pin pin' s ignore tries delay, 0 <= pin -> 0 <= pin' ->
  configure_generic a d root VALUE pin s ignore tries delay = configure_generic a d root VALUE pin' s ignore tries delay.
Proof.
  intros root L a d pin pin' s ignore tries delay P P'.
  assert (F : forall p, filename root VALUE p = root ++ firstn 5 CLASS).
  { intros p. unfold filename, VALUE. rewrite firstn_app. rewrite firstn_all2 by lia. rewrite L. change (4095 - 4090)%nat with 5%nat. reflexivity. }
  unfold configure_generic. destruct (Z.ltb_spec pin 0); [lia|]. destruct (Z.ltb_spec pin' 0); [lia|]. rewrite !F. reflexivity.
Qed.
Print Assumptions C78_length_refuted.

(** And the delay is not that which is given. *)
Theorem C78_delay_refuted : forall d root f s ignore delay, exists a t,
  configure_generic a d root f 1 s ignore 2 delay = (-1, t) /\ In (Delay d) t /\ (delay <> d -> ~ In (Delay delay) t).
Proof.
  intros d root f s ignore delay. exists (mkanswers (fun _ => Some ENOENT) (fun _ => None) None None true). eexists. split; [reflexivity|].
  split; [cbn; tauto|]. intros N. cbn. intros [Q|[Q|[Q|[]]]]; try discriminate Q. injection Q as Q. congruence.
Qed.
Print Assumptions C78_delay_refuted.

(** A case in which the hypotheses hold: the file of the direction is there at the second
    try. *)
Example C78_example :
  let a := mkanswers (fun k => if Nat.eqb k 3 then Some EACCES else None) (fun _ => None) None None true in
  opens a 3 /\ direction a 250 3 [114] 17 1 =
    (0, [Stat (file [114] 17 "direction"); Delay 250; Stat (file [114] 17 "direction"); Fopen (file [114] 17 "direction") 119; Fputs (text "out" ++ newline); Fflush; Fclose]).
Proof.
  cbn zeta. split; [|reflexivity]. exists 2%nat. split; [lia|]. split; [reflexivity|]. split; [reflexivity|]. intros j J. assert (j = 3%nat) as -> by lia.
  exists EACCES. split; [right; right; reflexivity|left; reflexivity].
Qed.
Print Assumptions C78_example.
