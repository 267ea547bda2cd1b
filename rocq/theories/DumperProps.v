(** C96: the dump utility. *)

From Coq Require Import ZArith List Bool Lia.
From Verif Require Import CInt CUtil DumpModel DumpSpec DumpProofs DumperModel DumperSpec DumperProofs.
Import ListNotations.
Local Open Scope Z_scope.

(** The text of a stream has a line for each sixteen octets. Each line gives their address,
    and the octets that are characters as such. Whoever reads the text gets the stream. *)
Theorem C96_reads : forall sh data,
  fits data -> (forall a, length (sh a) = 16%nat) ->
  exists text, dumper sh false [] data false = Some (text, [], 0) /\
    read_text text = data /\
    Z.of_nat (length text) = 73 * ((Z.of_nat (length data) + 15) / 16) /\
    forall k, (k * 16 < length data)%nat ->
      let chunk := firstn 16 (skipn (k * 16) data) in
      address_of (line_of text k) = sh (16 * Z.of_nat k) /\
      characters_of (line_of text k) = map visible chunk ++ repeat 32 (16 - length chunk).
Proof.
  intros sh data (Hd & Hs) Hl. exists (table (general sh) data 0 0 (count data)). split; [|split; [|split]].
  - unfold dumper. cbn [operands]. rewrite (proj1 (stream_whole sh data Hd Hs)). cbn [bind fst snd]. rewrite !app_nil_r. reflexivity.
  - apply read_table; assumption.
  - rewrite (proj1 (table_lines sh data Hd Hl _ _)). rewrite Nat2Z.inj_mul. unfold count.
    rewrite Z2Nat.id by (apply Z.div_pos; lia). change (Z.of_nat columns) with 73. lia.
  - intros k Hk chunk. pose proof (count_spec data) as (C1 & C2).
    rewrite (proj2 (table_lines sh data Hd Hl _ _)) by lia. rewrite Z.add_0_l.
    destruct (row_reads sh data (16 * Z.of_nat k) Hd (Hl _)) as (_ & _ & A & B). split; [exact A|]. rewrite B.
    rewrite chars_from by lia. replace (Z.to_nat (16 * Z.of_nat k)) with (k * 16)%nat by lia. reflexivity.
Qed.
Print Assumptions C96_reads.

(** Each argument is dumped as if in one piece, one after another. With -t the texts go to
    the standard error and what is read goes to the standard output. *)
Theorem C96_arguments : forall sh tee sources stdin,
  sources <> [] -> Forall fits (inputs sources stdin) ->
  dumper sh tee (map operand_of sources) stdin false =
    Some (if tee then (concat (inputs sources stdin), flat_map (dumped sh) (inputs sources stdin), 0)
          else (flat_map (dumped sh) (inputs sources stdin), [], 0)) /\
  Forall (fun data => exists text, dump (general sh) data 0 = Some text) (inputs sources stdin).
Proof.
  intros sh tee sources stdin Hn H. split.
  - unfold dumper. replace (match map operand_of sources with [] => [Dash] | _ => map operand_of sources end) with (map operand_of sources ++ []).
    2:{ rewrite app_nil_r. destruct sources as [|s l]; [contradiction|]. reflexivity. }
    rewrite operands_app by exact H. cbn [operands bind]. rewrite !app_nil_r.
    rewrite (flat_map_ext_in' (dumped sh) (fun data => table (general sh) data 0 0 (count data))); [reflexivity|].
    intros data Hin. rewrite Forall_forall in H. destruct (H data Hin) as (Hd & Hs). unfold dumped. rewrite (proj2 (stream_whole sh data Hd Hs)). reflexivity.
  - eapply Forall_impl; [|exact H]. intros data (Hd & Hs). eexists. apply (stream_whole sh data Hd Hs).
Qed.
Print Assumptions C96_arguments.

(** A file that cannot be opened, or that cannot be read to its end, stops the utility: what
    was read before it, and from it, is dumped, nothing after it is, and the exit status
    says so. *)
Theorem C96_stops : forall sh sources stdin data rest,
  Forall fits (inputs sources stdin) -> fits data ->
  dumper sh true (map operand_of sources ++ Fails :: rest) stdin false =
    Some (concat (inputs sources stdin), flat_map (dumped sh) (inputs sources stdin), 2) /\
  dumper sh true (map operand_of sources ++ Opens data true :: rest) stdin false =
    Some (concat (inputs sources stdin ++ [data]), flat_map (dumped sh) (inputs sources stdin ++ [data]), 3).
Proof.
  intros sh sources stdin data rest H (Hd & Hs).
  assert (E : forall l, Forall fits l -> flat_map (dumped sh) l = flat_map (fun data => table (general sh) data 0 0 (count data)) l).
  { intros l Hl. apply flat_map_ext_in'. intros x Hin. rewrite Forall_forall in Hl. destruct (Hl x Hin) as (Hx & Hsx). unfold dumped. rewrite (proj2 (stream_whole sh x Hx Hsx)). reflexivity. }
  assert (N : forall x, match map operand_of sources ++ x :: rest with [] => [Dash] | _ => map operand_of sources ++ x :: rest end = map operand_of sources ++ x :: rest).
  { intros x. destruct sources; reflexivity. }
  unfold dumper. rewrite !N. split.
  - rewrite operands_app by exact H. cbn [operands bind]. rewrite !app_nil_r. rewrite E by exact H. reflexivity.
  - rewrite operands_app by exact H. cbn [operands bind]. rewrite (proj1 (stream_whole sh data Hd Hs)). cbn [bind fst snd].
    rewrite E by (apply Forall_app; split; [exact H|constructor; [split; assumption|constructor]]).
    rewrite flat_map_app, concat_app. cbn [flat_map concat]. rewrite !app_nil_r. reflexivity.
Qed.
Print Assumptions C96_stops.

(** Cases in which the hypotheses hold: seventeen octets, and two files around the standard
    input. *)
Example C96_example :
  let sh := fun a => repeat (48 + a mod 10) 16 in
  let data := repeat 65 16 ++ [7] in
  dumper sh false [] data false = Some (
    repeat 48 16 ++ [58; 32] ++ [52; 49; 52; 49; 52; 49; 52; 49; 32] ++ [52; 49; 52; 49; 52; 49; 52; 49; 32] ++
    [52; 49; 52; 49; 52; 49; 52; 49; 32] ++ [52; 49; 52; 49; 52; 49; 52; 49; 32] ++ [124] ++ repeat 65 16 ++ [124; 10] ++
    repeat 54 16 ++ [58; 32] ++ [48; 55] ++ repeat 32 34 ++ [124; 46] ++ repeat 32 15 ++ [124; 10], [], 0) /\
  option_map (fun r => fst (fst r)) (dumper sh true [Opens [1] false; Dash; Dash; Opens [2; 3] false] [9] false) = Some [1; 9; 2; 3].
Proof. vm_compute. split; reflexivity. Qed.
Example C96_example_fits : fits (repeat 65 16 ++ [7]) /\ Forall fits (inputs [Contents [1]; StandardInput; Contents [2; 3]] [9]).
Proof. unfold fits, octets, is_u8. split; [|cbn [inputs]]; repeat constructor; cbn; lia. Qed.
