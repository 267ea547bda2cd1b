(** The properties: the mask of the log, its records, and how they are written. *)

From Coq Require Import ZArith List Bool Lia.
From Verif Require Import CUtil CInt NumberModel NumberSpec NumberProofs LogModel LogSpec LogProofs LogProofs2.
Import ListNotations.
Local Open Scope Z_scope.

(** ** C61: the mask *)

(** A priority is enabled just if its bit is set: that of the most urgent one is 7. *)
Theorem C61_enabled : forall mask p, 0 <= p <= 7 -> priority_isenabled mask p = Z.testbit mask (7 - p).
Proof. exact enabled_ok. Qed.
Print Assumptions C61_enabled.
(** So with the mask 0xfe all but debugging (7) is enabled. *)
Example C61_enabled_example : map (priority_isenabled 254) [0; 1; 2; 3; 4; 5; 6; 7] = [true; true; true; true; true; true; true; false].
Proof. reflexivity. Qed.

(** The variable sets the mask to the number that it denotes, or with "~0" to all. If it is
    not there, or is not empty and denotes no number that is not negative, the mask stays. *)
Theorem C61_setmask : forall mask,
  setmask None mask = mask /\ setmask (Some [126; 48]) mask = 255 /\
  (forall s n, numeral s n -> 0 <= n < 2 ^ 31 -> setmask (Some s) mask = n) /\
  (forall s, s <> [] -> s <> [126; 48] -> (forall n, 0 <= n -> ~ numeral s n) -> setmask (Some s) mask = mask).
Proof.
  intros mask. split; [reflexivity|]. split; [reflexivity|]. split; [intros s n; apply setmask_numeral|exact (fun s => setmask_other s mask)].
Qed.
Print Assumptions C61_setmask.
(** "0xf0"; "0360"; "240"; "0xfg". *)
Example C61_setmask_example :
  setmask (Some [48; 120; 102; 48]) 252 = 240 /\ setmask (Some [48; 51; 54; 48]) 252 = 240 /\ setmask (Some [50; 52; 48]) 252 = 240 /\ setmask (Some [48; 120; 102; 103]) 252 = 252 /\ numeral (hex 240) 240.
Proof. repeat split; try reflexivity. apply (numeral_plain [] _ 240); [constructor|]. apply (hex_body 240). lia. Qed.

(** An empty variable disables all logging; so does a number whose low 32 bits are zero. *)
Theorem C61_empty_refuted : forall mask, setmask (Some []) mask = 0 /\ forall p, 0 <= p <= 7 -> priority_isenabled (setmask (Some []) mask) p = false.
Proof. intros mask. split; [reflexivity|]. intros p H. rewrite enabled_ok by exact H. apply Z.bits_0. Qed.
Print Assumptions C61_empty_refuted.
Theorem C61_wide_refuted : exists s n, numeral s n /\ 0 <= n /\ n mod 2 ^ 8 = 0 /\ n <> 0 /\ (forall mask, setmask (Some s) mask = 0).
Proof.
  exists (hex (2 ^ 32)), (2 ^ 32). split; [apply (numeral_plain [] _ (2 ^ 32)); [constructor|]; apply (hex_body (2 ^ 32)); lia|]. split; [lia|]. split; [reflexivity|]. split; [lia|]. intros mask. vm_compute. reflexivity.
Qed.
Print Assumptions C61_wide_refuted.

(** The first line of a file sets the mask, if it starts with a number and then ends or has
    a space, a tab or a comment. *)
Theorem C61_import : forall s n rest mask, numeral s n -> 0 <= n < 2 ^ 31 -> stops rest -> ~ In 10 s -> (length s <= 80)%nat -> importmask (Some (s ++ rest)) mask = n.
Proof. exact importmask_numeral. Qed.
Print Assumptions C61_import.
(** "255 # all\nmore". *)
Example C61_import_example : importmask (Some [50; 53; 53; 32; 35; 32; 97; 108; 108; 10; 109]) 252 = 255 /\ importmask (Some [126; 48; 10]) 252 = 255 /\ importmask None 252 = 252 /\ importmask (Some [50; 53; 97]) 252 = 252.
Proof. repeat split; reflexivity. Qed.
(** And nothing else changes it: but a line that is empty, or begins with a space or with a
    comment and has no number, sets it to zero. *)
Theorem C61_import_only : forall f mask, importmask (Some f) mask <> mask ->
  ((exists r, f = 126 :: 48 :: r) /\ importmask (Some f) mask = 255) \/
  (exists s rest n, f = s ++ rest /\ numeral s n /\ 0 <= n /\ importmask (Some f) mask = s32 (clip (- 2 ^ 63) (2 ^ 63 - 1) n)) \/
  (f <> [] /\ In (hd 0 f) [10; 32; 9; 35] /\ importmask (Some f) mask = 0).
Proof. exact importmask_only. Qed.
Print Assumptions C61_import_only.
(** So a comment at the start of the file disables all logging, whatever comes after it. *)
Theorem C61_comment_refuted : forall t mask, importmask (Some (35 :: t)) mask = 0.
Proof.
  intros t mask. unfold importmask. cbn [fgets]. change (35 =? 10) with false. cbv iota. cbn [starts ALL]. change (126 =? 35) with false. cbn [andb].
  unfold strtoll, subject. cbn [spaces]. change (isspace 35) with false. cbv iota. change (35 =? 45) with false. change (35 =? 43) with false. cbv iota. unfold prefix. cbn [digits]. change (worth 35) with 36. reflexivity.
Qed.
Print Assumptions C61_comment_refuted.

(** ** C62: a record *)

(** What is written is the header and the message as one line of at most 8191 octets. *)
Theorem C62_record : forall header message, text header ++ text message <> [] -> compose header message = Some (line (text header ++ text message)).
Proof. exact compose_ok. Qed.
Print Assumptions C62_record.
Theorem C62_line : forall t, Z.of_nat (length (line t)) <= 8191 /\ last (line t) 0 = 10 /\ forall i, (i < length t)%nat -> Z.of_nat i < 8190 -> nth i (line t) 0 = nth i t 0.
Proof. exact line_ok. Qed.
Print Assumptions C62_line.
Example C62_line_example : compose (Some [104; 32]) (Some [109; 10]) = Some [104; 32; 109; 10] /\ compose (Some [104; 32]) (Some [109]) = Some [104; 32; 109; 10] /\ compose (Some [104]) None = Some [104; 10].
Proof. repeat split; reflexivity. Qed.
(** The octet before the buffer is accessed just if there is neither header nor message. *)
Theorem C62_safe : forall header message, compose header message = None <-> text header = [] /\ text message = [].
Proof. exact compose_none. Qed.
Print Assumptions C62_safe.

(** If write(2) never fails, all of the record is written, in however many parts. *)
Theorem C62_write : forall header message answers, text header <> [] -> Forall (fun a => fst a > 0) answers -> (length (line (text header ++ text message)) <= length answers)%nat ->
  vwrite header message answers = Some (line (text header ++ text message), 0).
Proof.
  intros h m a N F L. unfold vwrite. rewrite compose_ok by (intros X; apply app_eq_nil in X; destruct X; contradiction). cbn [bind]. apply loop_ok; assumption.
Qed.
Print Assumptions C62_write.
Example C62_write_example : vwrite (Some [104; 32]) (Some [109]) [(1, 0); (2, 0); (5, 0); (1, 0)] = Some ([104; 32; 109; 10], 0).
Proof. reflexivity. Qed.
(** If it does, what is written is a part from the beginning; one record is counted as lost
    at most. *)
Theorem C62_prefix : forall header message answers out n, vwrite header message answers = Some (out, n) -> is_prefix out (line (text header ++ text message)) /\ (n = 0 \/ n = 1).
Proof.
  intros h m a out n H. unfold vwrite in H. destruct (compose h m) as [r|] eqn:C; [|discriminate H]. cbn [bind] in H. assert (N : text h ++ text m <> []) by (intros X; apply app_eq_nil in X; apply compose_none in X; congruence). rewrite compose_ok in C by exact N. injection C as <-. apply (loop_any _ _ _ _ H).
Qed.
Print Assumptions C62_prefix.
(** But a failure is taken for success: an interrupted write(2), or any other that returns
    -1, ends the record, and it is not counted as lost. *)
Theorem C62_interrupted_refuted : forall r1 r2 errno answers, r2 <> [] -> Z.of_nat (length r2) < 2 ^ 63 ->
  (r1 <> [] -> write_loop (r1 ++ r2) ((Z.of_nat (length r1), 0) :: (-1, errno) :: answers) = Some (r1, 0)) /\ write_loop r2 ((-1, errno) :: answers) = Some ([], 0).
Proof.
  intros r1 r2 errno answers N L. assert (B : write_loop r2 ((-1, errno) :: answers) = Some ([], 0)).
  { destruct r2 as [|x r2]; [contradiction|]. cbn [write_loop]. rewrite turn_negative by (exact L || lia). rewrite wrote_none by lia. destruct answers; reflexivity. }
  split; [|exact B]. intros N1. destruct (r1 ++ r2) as [|y l] eqn:E; [apply app_eq_nil in E; destruct E; contradiction|]. cbn [write_loop].
  assert (P : Z.of_nat (length r1) > 0) by (destruct r1; [contradiction|cbn [length]; lia]). destruct (turn_ok (y :: l) (Z.of_nat (length r1)) 0 P) as (rest' & -> & S & _). cbn [write_loop] in B |- *.
  assert (W : wrote (y :: l) (Z.of_nat (length r1)) = r1) by (unfold wrote; rewrite Nat2Z.id, <- E, firstn_app, Nat.sub_diag, firstn_all; cbn [firstn]; apply app_nil_r).
  rewrite W in *. rewrite <- E in S. apply app_inv_head in S. subst rest'. change (match r2 with [] => Some ([], 0) | _ :: _ => match turn r2 (-1) errno with (rest', lost, true) => let* '(out, lost') := write_loop rest' answers in Some (wrote r2 (-1) ++ out, lost + lost') | (_, lost, false) => Some (wrote r2 (-1), lost) end end) with (write_loop r2 ((-1, errno) :: answers)) in *.
  rewrite B. cbn [bind]. rewrite app_nil_r. reflexivity.
Qed.
Print Assumptions C62_interrupted_refuted.

(** ** C63: many threads, and the destination *)

(** However threads take turns, and however write(2) cuts records up: the log is made of
    records, one after the other, each written by one thread, those of one thread in its
    order. If write(2) does not fail each is complete, but for the one that is just being
    written; and else each is written from the beginning as far as it goes. *)
Theorem C63_schedules : forall q events s, run (start q) events = Some s -> exists h : history,
  output s = written h /\ (forall i, of_thread i h ++ queues s i = q i) /\
  Forall (fun e => is_prefix (snd e) (snd (fst e))) h /\
  (Forall (fun e => match e with Turn rc _ => rc > 0 | _ => True end) events ->
     lost s = 0 /\ match holder s with
     | None => Forall (fun e => snd e = snd (fst e)) h
     | Some (i, rest) => exists h' r w, h = h' ++ [(i, r, w)] /\ r = w ++ rest /\ Forall (fun e => snd e = snd (fst e)) h'
     end).
Proof.
  intros q events s R. destruct (inv_run (Forall good events) q events _ _ (inv_start _ q) (fun C => C) R) as (h & O & Q & L & H). exists h. split; [exact O|]. split; [exact Q|]. destruct (holder s) as [[i rest]|].
  - destruct H as (h' & r & w & mid & -> & F & E & D & M). split.
    + apply Forall_app. split; [apply (Forall_impl _ (fun e X => proj1 X) F)|]. constructor; [exists (mid ++ rest); exact E|constructor].
    + intros C. split; [exact (L C)|]. exists h', r, w. split; [reflexivity|]. split; [rewrite (M C) in E; exact E|]. apply (Forall_impl _ (fun e X => proj2 X C) F).
  - split; [apply (Forall_impl _ (fun e X => proj1 X) H)|]. intros C. split; [exact (L C)|]. apply (Forall_impl _ (fun e X => proj2 X C) H).
Qed.
Print Assumptions C63_schedules.
(** Two threads; the second is first. *)
Example C63_schedules_example :
  option_map (fun s => (output s, holder s, queues s 0%nat, queues s 1%nat))
    (run (start (fun i => match i with O => [[97; 98; 10]] | 1%nat => [[99; 10]; [100; 10]] | _ => [] end))
       [Begin 1; Turn 1 0; Turn 1 0; End; Begin 0; Turn 2 0]) = Some ([99; 10; 97; 98], Some (0%nat, [10]), [], [[100; 10]]).
Proof. reflexivity. Qed.
(** While a thread writes no other can begin. *)
Theorem C63_exclusive : forall s i rest j, holder s = Some (i, rest) -> step s (Begin j) = None.
Proof. intros s i rest j H. unfold step. rewrite H. reflexivity. Qed.
Print Assumptions C63_exclusive.

(** Where a record goes: nowhere, to the descriptor, or to the system log, as the strategy
    says; and automatically, to the system log if that was so before, or if the process is a
    daemon and the descriptor is not one of a file. *)
Theorem C63_destination : forall strategy cached isfile leader orphan,
  fst (vlog strategy cached isfile leader orphan) =
    if strategy =? 88 then Nowhere
    else if strategy =? 69 then Descriptor
    else if strategy =? 65 then if cached || (negb isfile && (leader || orphan)) then Syslog else Descriptor
    else Syslog.
Proof.
  intros strategy cached isfile leader orphan. unfold vlog. destruct (Z.eqb_spec strategy 88) as [-> |]; [reflexivity|]. destruct (Z.eqb_spec strategy 69) as [-> |]; [reflexivity|]. destruct (Z.eqb_spec strategy 83) as [-> |]; [reflexivity|].
  destruct (Z.eqb_spec strategy 65) as [-> |]; [|reflexivity]. destruct cached, isfile, leader, orphan; reflexivity.
Qed.
Print Assumptions C63_destination.
(** And once to the system log, then always. *)
Theorem C63_sticky : forall l cached i j, nth i (vlogs 65 cached l) Nowhere = Syslog -> (i <= j < length l)%nat -> nth j (vlogs 65 cached l) Nowhere = Syslog.
Proof. exact vlogs_sticky. Qed.
Print Assumptions C63_sticky.
Example C63_sticky_example : vlogs 65 false [(false, false, false); (false, true, false); (true, false, false)] = [Descriptor; Syslog; Syslog].
Proof. reflexivity. Qed.
