(** Property C64. *)

From Coq Require Import ZArith List Bool Lia.
From Verif Require Import CInt CUtil EscapeModel EscapeSpec PhexModel PhexSpec PhexProofs.
Import ListNotations.
Local Open Scope Z_scope.

(** Nothing is lost, added or reordered: for every input, option, limit and earlier
    history, what is printed is the tokens of the octets in order, newlines apart.
    With newlines passed on, newlines have no token. *)
Theorem C64_text : forall length (nl esc hex : bool) l s ts,
  octets l ->
  Forall2 (token esc hex) (if nl then without_newlines l else l) ts ->
  without_newlines (fst (emits length nl esc hex l s)) = concat ts /\
  without_newlines (program length nl esc hex l) = concat ts.
Proof.
  intros length nl esc hex l s ts Ho F. apply tokens_tok in F. subst ts. split; [apply emits_text, Ho|].
  unfold program. pose proof (emits_text length nl esc hex l Ho start) as Q.
  destruct (emits length nl esc hex l start) as [o s']. cbn [fst] in Q. rewrite wn_app, limit_wn, app_nil_r. exact Q.
Qed.
Print Assumptions C64_text.

(** Every octet has a token, and just one; it is printable, of one to four characters. *)
Theorem C64_token : forall esc hex c, is_u8 c ->
  exists t, token esc hex c t /\ (forall t', token esc hex c t' -> t' = t) /\
    (1 <= length t <= 4)%nat /\ Forall (fun x => 32 <= x <= 126) t.
Proof.
  intros esc hex c Hc. exists (tok esc hex c). split; [apply token_tok; reflexivity|].
  split; [intros t' Q; apply token_tok, Q|]. split; [pose proof (tok_len esc hex c) as Q; unfold zlen in Q; lia|].
  apply Forall_forall. intros x. apply tok_printable, Hc.
Qed.
Print Assumptions C64_token.

(** Without a limit (zero, or the ~0 of internettool) no line is broken. *)
Theorem C64_unlimited : forall length esc hex l s ts,
  length = 0 \/ length = 2 ^ 64 - 1 -> octets l -> Forall2 (token esc hex) l ts ->
  fst (emits length false esc hex l s) = concat ts.
Proof. intros length esc hex l s ts HL Ho F. apply tokens_tok in F. subst ts. apply emits_unlimited; assumption. Qed.
Print Assumptions C64_unlimited.

(** With a limit the tokens are set in lines no longer than it, each as full as can
    be, and no token is split. *)
Theorem C64_lines : forall limit esc hex l ts,
  4 <= limit < 2 ^ 64 - 4 -> octets l -> Forall2 (token esc hex) l ts ->
  exists lines, concat lines = ts /\ fst (emits limit false esc hex l start) = set lines /\ filled limit lines.
Proof.
  intros limit esc hex l ts HL Ho F. apply tokens_tok in F. subst ts.
  destruct (emits_lines limit esc hex l HL Ho start [] eq_refl ltac:(unfold width; cbn; lia)) as (first & rest & E1 & E2 & E3).
  exists (first :: rest). split; [exact E1|]. split; [|exact E3]. rewrite E2. destruct rest; [cbn; apply app_nil_r|reflexivity].
Qed.
Print Assumptions C64_lines.

(** With newlines passed on a line may be one character too long, but no more. *)
Theorem C64_newline_width : forall limit nl esc hex l line,
  4 <= limit < 2 ^ 64 - 4 -> octets l ->
  has_line (fst (emits limit nl esc hex l start)) line -> Z.of_nat (length line) <= limit + 1.
Proof.
  intros limit nl esc hex l line HL Ho H. apply has_line_max in H.
  pose proof (emits_max limit nl esc hex l HL Ho start 0) as Q. unfold zlen in H.
  assert (inv limit start 0) by (unfold inv, start; cbn; lia). specialize (Q H0). lia.
Qed.
Print Assumptions C64_newline_width.

Theorem C64_newline_width_refuted :
  fst (emits 4 true false false [10; 10; 97; 98; 99; 100; 101] start) = [10; 10; 97; 98; 99; 100; 101] /\
  has_line [10; 10; 97; 98; 99; 100; 101] [97; 98; 99; 100; 101].
Proof.
  split; [reflexivity|]. split; [cbn; lia|]. exists [10; 10], []. split; [reflexivity|].
  split; [right; exists [10]; reflexivity|left; reflexivity].
Qed.
Print Assumptions C64_newline_width_refuted.

(** Newlines passed on are not kept: the second of two after text is lost, and so is
    one after a character that began a new line; a line after a newline is cut short,
    as if it had begun where the last one stopped. *)
Theorem C64_newline_lost_refuted :
  fst (emits 72 true false false [97; 10; 10; 98] start) = [97; 10; 98] /\
  fst (emits 4 true false false [97; 98; 99; 100; 101; 10; 102] start) = [97; 98; 99; 100; 10; 101; 102] /\
  fst (emits 4 true false false [97; 98; 99; 10; 100; 101; 102] start) = [97; 98; 99; 10; 100; 10; 101; 102].
Proof. repeat split. Qed.
Print Assumptions C64_newline_lost_refuted.

(** The last line of the program's output is ended only if its last character did not
    begin it. *)
Theorem C64_last_newline_refuted :
  program 4 false false false [97; 98; 99; 100] = [97; 98; 99; 100; 10] /\
  program 4 false false false [97; 98; 99; 100; 101] = [97; 98; 99; 100; 10; 101].
Proof. repeat split. Qed.
Print Assumptions C64_last_newline_refuted.

(** What is printed, taken back together, reads as the input: for the hexadecimal form
    always, for the usual form if no NUL stands before an octal digit. *)
Theorem C64_round_trip : forall limit esc hex l size,
  octets l -> hex = true \/ nul_safe l -> Z.of_nat (length l) < size ->
  collapse (without_newlines (fst (emits limit false esc hex l start)) ++ [0]) size = Some (l ++ [0]).
Proof.
  intros limit esc hex l size Ho Hn Hs. rewrite (emits_text limit false esc hex l Ho start). apply toks_collapse; assumption.
Qed.
Print Assumptions C64_round_trip.

Theorem C64_round_trip_refuted :
  collapse (fst (emits 0 false false false [0; 49] start) ++ [0]) 100 = Some [1; 0].
Proof. reflexivity. Qed.
Print Assumptions C64_round_trip_refuted.

(** A case in which the hypotheses hold. *)
Example C64_example :
  octets [104; 105; 10; 34; 200; 92; 0; 57] /\ nul_safe [104; 105; 10; 34; 200; 92; 0; 57] /\
  fst (emits 6 false true false [104; 105; 10; 34; 200; 92; 0; 57] start) =
    [104; 105; 92; 110; 92; 34; 10; 92; 120; 99; 56; 92; 92; 10; 92; 48; 57] /\
  fst (emits 6 false true true [104; 105; 10; 34] start) =
    [104; 105; 92; 120; 48; 97; 10; 92; 120; 50; 50] /\
  filled 6 [[[104]; [105]; [92; 110]; [92; 34]]; [[92; 120; 99; 56]; [92; 92]]; [[92; 48]; [57]]].
Proof.
  split; [repeat (apply Forall_cons; [red; lia|]); apply Forall_nil|]. split.
  { intros a b c E. unfold octal.
    do 6 (destruct a as [|? a]; [discriminate E|injection E as _ E]).
    destruct a as [|? a]; [injection E as <- <-; lia|]. injection E as _ E.
    destruct a as [|? a]; [discriminate E|]. injection E as _ E. destruct a; discriminate E. }
  repeat split; vm_compute; try discriminate; reflexivity.
Qed.
