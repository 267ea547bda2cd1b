(** The properties: numbers that are converted from one notation to another. *)

From Coq Require Import ZArith List Bool Lia.
From Verif Require Import CUtil CInt NumberModel NumberSpec NumberProofs DecModel DecSpec DecProofs.
Import ListNotations.
Local Open Scope Z_scope.

(** By whichever of its names it is run, the program answers each of its arguments by a line
    with that number as the name says, in order, and exits with zero. *)
Theorem C92_converts : forall name path args vs stdin,
  In name [n_dec; n_hex; n_oct; n_ntohs; n_htons; n_ntohl; n_htonl] -> path_to name path -> given args -> Forall2 stands_for args vs ->
  exists lines, Forall2 (answers name) vs lines /\ main path args stdin = (concat lines, 0).
Proof.
  intros name path args vs stdin N P G F. exists (map (show (choose path)) vs). split; [exact (show_all name path args vs N P F)|]. rewrite (main_args path args stdin G). apply loop_ok_end. exact F.
Qed.
Print Assumptions C92_converts.
(** The same of the lines of standard input. *)
Theorem C92_file : forall name path args lines_in vs,
  In name [n_dec; n_hex; n_oct; n_ntohs; n_htons; n_ntohl; n_htonl] -> path_to name path -> (args = [] \/ args = [[45]]) ->
  lines_in <> [] -> Forall is_line lines_in -> Forall2 stands_for lines_in vs ->
  exists lines, Forall2 (answers name) vs lines /\ main path args (concat lines_in) = (concat lines, 0).
Proof.
  intros name path args ls vs N P A Ne L F. exists (map (show (choose path)) vs). split; [exact (show_all name path ls vs N P F)|]. rewrite (main_file path args ls A Ne L). apply loop_ok_end. exact F.
Qed.
Print Assumptions C92_file.
(** "/usr/bin/hex 31 017" prints 0x1f and 0xf; "htons 258" prints 513. *)
Example C92_converts_example :
  path_to n_hex [47; 104; 101; 120] /\ given [[51; 49]; [48; 49; 55]] /\ Forall2 stands_for [[51; 49]; [48; 49; 55]] [31; 15] /\
  main [47; 104; 101; 120] [[51; 49]; [48; 49; 55]] [] = ([48; 120; 49; 102; 10; 48; 120; 102; 10], 0) /\
  main n_htons [] [50; 53; 56; 10] = ([53; 49; 51; 10], 0) /\ is_line [50; 53; 56; 10] /\ stands_for [50; 53; 56; 10] 258.
Proof.
  assert (B : body [51; 49] 31). { apply body_dec; [|discriminate|discriminate]. apply (denotes_snoc 10 [51] 3 49 1); [apply (denotes_snoc 10 [] 0 51 3); [constructor| |]| |]; cbn; lia || tauto. }
  assert (C : body [48; 49; 55] 15). { apply body_oct; [|reflexivity]. apply (denotes_snoc 8 [48; 49] 1 55 7); [apply (denotes_snoc 8 [48] 0 49 1); [apply (denotes_snoc 8 [] 0 48 0); [constructor| |]| |]| |]; cbn; lia || tauto. }
  split; [right; exists []; reflexivity|]. split; [split; discriminate|]. split; [|split; [reflexivity|split; [reflexivity|]]].
  - constructor; [|constructor; [|constructor]].
    + exists [51; 49], [], 31. repeat split; [|left; reflexivity]. apply (numeral_plain [] [51; 49] 31); [constructor|exact B].
    + exists [48; 49; 55], [], 15. repeat split; [|left; reflexivity]. apply (numeral_plain [] [48; 49; 55] 15); [constructor|exact C].
  - apply (shown_line [50; 53; 56] 258); [|lia]. apply (shown_dec 258). lia.
Qed.

(** The first argument that makes no sense stops it, after the lines before, with three. *)
Theorem C92_refused : forall name path args vs bad more stdin,
  In name [n_dec; n_hex; n_oct; n_ntohs; n_htons; n_ntohl; n_htonl] -> path_to name path -> given (args ++ bad :: more) -> Forall2 stands_for args vs -> nonsense bad ->
  exists lines, Forall2 (answers name) vs lines /\ main path (args ++ bad :: more) stdin = (concat lines, 3).
Proof.
  intros name path args vs bad more stdin N P G F B. exists (map (show (choose path)) vs). split; [exact (show_all name path args vs N P F)|]. rewrite (main_args path _ stdin G).
  rewrite (loop_ok (choose path) args vs (bad :: more) F). cbn [loop]. rewrite (nonsense_convert _ bad B). cbn [fst snd]. rewrite app_nil_r. reflexivity.
Qed.
Print Assumptions C92_refused.
(** A string without a number at its start is refused if it starts with other than space. *)
Example C92_refused_example : nonsense [120] /\ main n_dec [[49]; [120]; [50]] [] = ([49; 10], 3) /\ main n_dec [[49; 50; 120]] [] = ([], 3).
Proof.
  split; [|split; reflexivity]. destruct (trichotomy [120]) as [(v & S)|[N|(_ & [D|D])]]; [|exact N|discriminate D|cbn in D; lia].
  apply (stands_convert DEC) in S. discriminate S.
Qed.

(** Each string is for a number, or makes no sense, or is as below. *)
Theorem C92_strings : forall s, (exists v, stands_for s v) \/ nonsense s \/ (~ started s /\ (s = [] \/ In (hd 0 s) [32; 9; 10; 11; 12; 13])).
Proof. exact trichotomy. Qed.
Print Assumptions C92_strings.
(** A string is for no more than one number. *)
Theorem C92_one : forall s v w, stands_for s v -> stands_for s w -> v = w.
Proof.
  intros s v w (b & r & n & E & N & R & ->) (b2 & r2 & n2 & E2 & N2 & R2 & ->). pose proof (strtoull_ok b n r N (space_ends r R)) as A. pose proof (strtoull_ok b2 n2 r2 N2 (space_ends r2 R2)) as A2. rewrite <- E in A. rewrite <- E2 in A2. rewrite A in A2. congruence.
Qed.
Print Assumptions C92_one.
Example C92_strings_example : ~ started [32; 120] /\ stands_for [53; 10] 5.
Proof.
  split.
  - intros H. apply started_subject in H. apply H. reflexivity.
  - apply (shown_line [53] 5); [|lia]. apply (shown_dec 5). lia.
Qed.

(** What one of them prints another reads: the notation of the numbers in between does not
    matter. *)
Theorem C92_again : forall name path1 path2 name2 args vs stdin stdin',
  In name [n_dec; n_hex; n_oct] -> path_to name path1 -> In name2 [n_dec; n_hex; n_oct; n_ntohs; n_htons; n_ntohl; n_htonl] -> path_to name2 path2 ->
  given args -> Forall2 stands_for args vs -> main path2 [] (fst (main path1 args stdin)) = main path2 args stdin'.
Proof.
  intros name p1 p2 n3 args vs s s' N P N3 P3 G F. rewrite !(main_args _ _ _ G), !(loop_ok_end _ _ _ F). cbn [fst].
  assert (R : forall v, In v vs -> 0 <= v < 2 ^ 64).
  { clear -F. induction F as [|x v l vs H _ IH]; intros w []; [subst w; exact (stands_range x v H)|apply IH; assumption]. }
  assert (N' : In name names) by (cbn in N |- *; tauto).
  destruct (lines_again (show (choose p1)) (fun v => v) vs) as (L & F2).
  - intros v I. specialize (R v I). pose proof (show_answers name p1 v N' P R) as A. destruct A as [(_ & ->)|[(_ & ->)|[(_ & ->)|[(E & _)|(E & _)]]]].
    + apply shown_line; [apply shown_dec|]; exact R.
    + apply shown_line; [apply shown_hex|]; exact R.
    + apply shown_line; [apply shown_oct|]; exact R.
    + exfalso. cbn in N, E. destruct N as [<- |[<- |[<- |[]]]]; destruct E as [E|[E|[]]]; discriminate E.
    + exfalso. cbn in N, E. destruct N as [<- |[<- |[<- |[]]]]; destruct E as [E|[E|[]]]; discriminate E.
  - rewrite map_id in F2. rewrite main_file; [apply loop_ok_end; exact F2|left; reflexivity| |exact L]. destruct G as (G & _). destruct F; [contradiction|discriminate].
Qed.
Print Assumptions C92_again.
(** To the order of the network and back is where it was, within the width. *)
Theorem C92_there_and_back : forall there back path1 path2 width args vs stdin,
  In (there, back, width) [(n_htons, n_ntohs, 16); (n_ntohs, n_htons, 16); (n_htonl, n_ntohl, 32); (n_ntohl, n_htonl, 32)] ->
  path_to there path1 -> path_to back path2 -> given args -> Forall2 stands_for args vs ->
  main path2 [] (fst (main path1 args stdin)) = (concat (map (fun v => dec (v mod 2 ^ width) ++ [10]) vs), 0).
Proof.
  intros there back p1 p2 width args vs s I P1 P2 G F. rewrite (main_args _ _ _ G), (loop_ok_end _ _ _ F). cbn [fst].
  assert (R : forall v, In v vs -> 0 <= v < 2 ^ 64).
  { clear -F. induction F as [|x v l vs H _ IH]; intros w []; [subst w; exact (stands_range x v H)|apply IH; assumption]. }
  assert (E : exists w, (2 <= w <= 4)%nat /\ width = 8 * Z.of_nat w /\ (forall v, 0 <= reversed w v < 2 ^ width) /\ (forall v, 0 <= v < 2 ^ width -> reversed w (reversed w v) = v) /\
    (forall v, 0 <= v < 2 ^ 64 -> show (choose p1) v = dec (reversed w (v mod 2 ^ width)) ++ [10] /\ show (choose p2) v = dec (reversed w (v mod 2 ^ width)) ++ [10])).
  { assert (A1 : In there names /\ In back names) by (cbn in I; decompose [or] I; try contradiction; match goal with H : _ = _ |- _ => injection H as <- <- _ end; cbn; tauto). destruct A1 as (A1 & A2).
    pose proof (fun v H => show_answers there p1 v A1 P1 H) as S1. pose proof (fun v H => show_answers back p2 v A2 P2 H) as S2.
    cbn [In] in I. destruct I as [I|[I|[I|[I|[]]]]]; injection I as <- <- <-; [exists 2%nat|exists 2%nat|exists 4%nat|exists 4%nat]; (split; [lia|]); (split; [reflexivity|]);
      (split; [intros v; apply reversed_range2 || apply reversed_range4|]); (split; [intros v; apply reversed_twice2 || apply reversed_twice4|]);
      intros v H; specialize (S1 v H); specialize (S2 v H);
      (split; [destruct S1 as [(E & _)|[(E & _)|[(E & _)|[(E & L)|(E & L)]]]]|destruct S2 as [(E & _)|[(E & _)|[(E & _)|[(E & L)|(E & L)]]]]]);
      try discriminate E; try exact L; exfalso; cbn in E; destruct E as [E|[E|[]]]; discriminate E. }
  destruct E as (w & W & Ew & Rg & Tw & Sh).
  assert (Le : 2 ^ width <= 2 ^ 64) by (apply Z.pow_le_mono_r; lia).
  assert (Pw : 0 < 2 ^ width) by (apply Z.pow_pos_nonneg; lia).
  destruct (lines_again (show (choose p1)) (fun v => reversed w (v mod 2 ^ width)) vs) as (L & F2).
  - intros v Iv. destruct (Sh v (R v Iv)) as (-> & _). pose proof (Rg (v mod 2 ^ width)). apply shown_line; [apply shown_dec|]; lia.
  - rewrite main_file; [|left; reflexivity| |exact L].
    + rewrite (loop_ok_end _ _ _ F2). f_equal. f_equal. rewrite map_map. apply map_ext_in. intros v Iv.
      pose proof (Rg (v mod 2 ^ width)). destruct (Sh (reversed w (v mod 2 ^ width)) ltac:(lia)) as (_ & ->). rewrite (Z.mod_small (reversed _ _)) by lia. rewrite Tw; [reflexivity|]. apply Z.mod_pos_bound. exact Pw.
    + destruct G as (G & _). destruct F; [contradiction|discriminate].
Qed.
Print Assumptions C92_there_and_back.
Example C92_again_example : main n_dec [] (fst (main n_oct [[48; 120; 70; 70]] [])) = ([50; 53; 53; 10], 0) /\ main n_ntohl [] (fst (main n_htonl [[49]] [])) = ([49; 10], 0) /\ fst (main n_htonl [[49]] []) = [49; 54; 55; 55; 55; 50; 49; 54; 10].
Proof. repeat split; reflexivity. Qed.

(** Nothing at all is not right: two. *)
Theorem C92_nothing : forall path, main path [] [] = ([], 2) /\ main path [[45]] [] = ([], 2).
Proof. intros path. split; reflexivity. Qed.
Print Assumptions C92_nothing.

(** But a string that no number starts, and that is empty or starts with white space, is
    converted to zero as if it were right. *)
Theorem C92_zero_refuted : forall name path s stdin,
  In name [n_dec; n_hex; n_oct; n_ntohs; n_htons; n_ntohl; n_htonl] -> path_to name path -> ~ started s -> (s = [] \/ In (hd 0 s) [32; 9; 10; 11; 12; 13]) ->
  exists line, answers name 0 line /\ main path [s] stdin = (line, 0) /\ forall v, ~ stands_for s v.
Proof.
  intros name path s stdin N P S H. exists (show (choose path) 0). split; [apply show_answers; [exact N|exact P|lia]|]. split.
  - rewrite main_args by (split; [discriminate|intros E; injection E as ->; destruct H as [H|H]; [discriminate H|cbn in H; lia]]). cbn [loop]. rewrite (empty_convert _ s S H). rewrite app_nil_r. reflexivity.
  - intros v (b & r & n & E & Nu & _). apply S. exists b, r, n. auto.
Qed.
Print Assumptions C92_zero_refuted.
Example C92_zero_example : ~ started [32; 120] /\ main n_dec [[32; 120]] [] = ([48; 10], 0) /\ main n_dec [[]] [] = ([48; 10], 0).
Proof. split; [exact (proj1 C92_strings_example)|split; reflexivity]. Qed.
(** And a long line of standard input is taken for more than one. *)
Theorem C92_long_refuted : exists line, stands_for (line ++ [10]) 10 /\ ~ In 10 line /\ main n_dec [] (line ++ [10]) = ([49; 10; 50; 10], 0).
Proof.
  exists (repeat 48 62 ++ [49; 50]). split; [|split; [|reflexivity]].
  - exists (repeat 48 62 ++ [49; 50]), [10], 10. split; [reflexivity|]. split; [|split; [right; cbn; tauto|reflexivity]].
    apply (numeral_plain [] (repeat 48 62 ++ [49; 50]) 10); [constructor|]. apply body_oct; [|reflexivity].
    assert (D : denotes 8 (repeat 48 62) 0) by (cbn [repeat]; repeat (apply (denotes_zero 8); [lia|]); constructor).
    change (repeat 48 62 ++ [49; 50]) with ((repeat 48 62 ++ [49]) ++ [50]). apply (denotes_snoc 8 (repeat 48 62 ++ [49]) 1 50 2); [apply (denotes_snoc 8 (repeat 48 62) 0 49 1); [exact D| |]| |]; cbn; lia || tauto.
  - intros I. apply in_app_or in I. destruct I as [I|I]; [apply repeat_spec in I; discriminate|cbn in I; lia].
Qed.
Print Assumptions C92_long_refuted.
