(** Properties C43 and C44. *)

From Coq Require Import ZArith List Bool Lia.
From Verif Require Import CInt StringModel StringSpec StringProofs.
Import ListNotations.
Local Open Scope Z_scope.

(** Copying into a buffer of at least [n] octets: exactly the first n-1 octets of
    the string (all of them if there are fewer) and a NUL are written, at the
    beginning of the buffer, and nothing else is changed. *)
Theorem C44_string_copy : forall dest s r n, text s -> 1 <= n <= Z.of_nat (length dest) ->
  string_copy dest (s ++ 0 :: r) n = Some (over dest (firstn (Z.to_nat (n - 1)) s ++ [0])) /\
  Z.of_nat (length (firstn (Z.to_nat (n - 1)) s ++ [0])) <= n /\
  length (over dest (firstn (Z.to_nat (n - 1)) s ++ [0])) = length dest.
Proof.
  intros dest s r n Ht Hn. rewrite copy_spec by (auto; lia). destruct (Z.eqb_spec n 0); [lia|].
  assert (Z.of_nat (length (firstn (Z.to_nat (n - 1)) s ++ [0])) <= n).
  { rewrite app_length, firstn_length. cbn. lia. }
  split; [reflexivity|]. split; [assumption|]. apply over_length. lia.
Qed.
Print Assumptions C44_string_copy.

(** Nothing at all is written to a buffer of no octets. *)
Theorem C44_no_room : forall dest s r, text s -> string_copy dest (s ++ 0 :: r) 0 = Some dest.
Proof. intros dest s r Ht. rewrite copy_spec by (auto; lia). reflexivity. Qed.
Print Assumptions C44_no_room.

Example C44_example :
  text [97; 98; 99] /\
  string_copy [1; 2; 3; 4; 5] ([97; 98; 99] ++ [0]) 3 = Some [97; 98; 0; 4; 5] /\
  string_copy [1; 2; 3; 4; 5] ([97; 98; 99] ++ [0; 7]) 5 = Some [97; 98; 99; 0; 5] /\
  string_copy [1] ([97; 98; 99] ++ [0]) 2 = None.
Proof. split; [intros [|[|[|[]]]]; discriminate|]. vm_compute. auto. Qed.

(** The base name of a path is what follows its last slash. *)
Theorem C44_basename : forall path, exists dir,
  path = dir ++ basename path /\ ~ In 47 (basename path) /\ (dir = [] \/ exists d, dir = d ++ [47]).
Proof. exact basename_spec. Qed.
Print Assumptions C44_basename.

Example C44_basename_example : basename [47; 97; 47; 98; 99] = [98; 99] /\ basename [98; 99] = [98; 99].
Proof. auto. Qed.

(** The measured length is that of the arguments joined with blanks, and a NUL. *)
Theorem C43_length : forall argc argv, readable argc argv ->
  command_length argc argv = Some (Z.of_nat (length (join (arguments argc argv))) + 1).
Proof.
  intros argc argv H. unfold command_length. rewrite length_loop_spec by (auto; lia). reflexivity.
Qed.
Print Assumptions C43_length.

(** Into a buffer of any size: a prefix of the joined arguments and a NUL are
    written at the beginning of the buffer, never more than the size given, and
    their number is returned. *)
Theorem C43_line : forall argc argv buf size, readable argc argv -> 1 <= size <= Z.of_nat (length buf) ->
  exists out rest, join (arguments argc argv) = out ++ rest /\
    Z.of_nat (length out) + 1 <= size /\
    command_line argc argv buf size = Some (over buf (out ++ [0]), Z.of_nat (length out) + 1).
Proof.
  intros argc argv buf size Hr Hs. exists (fitting 0 (arguments argc argv) (size - 1)).
  destruct (fitting_prefix (arguments argc argv) 0 (size - 1) ltac:(lia)) as (rest & E). exists rest.
  split; [exact E|]. split.
  - pose proof (fitting_length (arguments argc argv) 0 (size - 1) ltac:(lia)). lia.
  - exact (line_spec argc argv buf size Hr Hs).
Qed.
Print Assumptions C43_line.

(** With the measured length, all of it. *)
Theorem C43_complete : forall argc argv buf size len, readable argc argv ->
  command_length argc argv = Some len -> len <= size <= Z.of_nat (length buf) ->
  command_line argc argv buf size = Some (over buf (join (arguments argc argv) ++ [0]), len).
Proof.
  intros argc argv buf size len Hr Hl Hs. rewrite C43_length in Hl by exact Hr. injection Hl as <-.
  rewrite line_spec by (auto; lia). cbv zeta. rewrite fitting_all; [reflexivity|lia|]. cbn. lia.
Qed.
Print Assumptions C43_complete.

(** Nothing is written to a buffer of no octets. *)
Theorem C43_no_room : forall argc argv buf, command_line argc argv buf 0 = Some (buf, 0).
Proof. reflexivity. Qed.
Print Assumptions C43_no_room.

(** Arguments are not cut: whole arguments are written as long as the next one
    fits, except that the separating blank may already be there. *)
Theorem C43_whole_arguments : forall argc argv buf size out n,
  readable argc argv -> 1 <= size <= Z.of_nat (length buf) ->
  command_line argc argv buf size = Some (over buf (out ++ [0]), n) -> n = Z.of_nat (length out) + 1 ->
  exists whole others, arguments argc argv = whole ++ others /\
    (out = join whole \/ others <> [] /\ whole <> [] /\ out = join whole ++ [32]) /\
    (others = [] \/ size <= Z.of_nat (length (join (whole ++ firstn 1 others)))).
Proof.
  intros argc argv buf size out n Hr Hs H Hn. rewrite line_spec in H by assumption. cbv zeta in H.
  set (f := fitting _ _ _) in H. assert (E : out = f).
  { assert (H0 : (over buf (f ++ [0]), Z.of_nat (length f) + 1) = (over buf (out ++ [0]), n)) by congruence.
    apply pair_equal_spec in H0. destruct H0 as [H1 H2].
    assert (L : length f = length out) by lia.
    unfold over in H1. rewrite <- !app_assoc in H1.
    apply (f_equal (firstn (length out))) in H1. rewrite !firstn_app, L, !Nat.sub_diag, !firstn_all in H1.
    rewrite firstn_all2 in H1 by lia. rewrite !firstn_O, !app_nil_r in H1. symmetry. exact H1. }
  subst out. clear H Hn. unfold f.
  assert (G : forall args index limit pre, 0 <= index -> (index = 0 <-> pre = []) -> 0 <= limit ->
    exists whole others, args = whole ++ others /\
     (join pre ++ fitting index args limit = join (pre ++ whole) \/
      others <> [] /\ pre ++ whole <> [] /\ join pre ++ fitting index args limit = join (pre ++ whole) ++ [32]) /\
     (others = [] \/ Z.of_nat (length (join pre)) + limit < Z.of_nat (length (join (pre ++ whole ++ firstn 1 others))))).
  { clear. assert (J : forall pre s, pre <> [] -> join (pre ++ [s]) = join pre ++ 32 :: s).
    { induction pre as [|p pre IH]; intros s H; [contradiction|]. destruct pre as [|q pre]; [reflexivity|].
      change ((p :: q :: pre) ++ [s]) with (p :: q :: (pre ++ [s])). cbn [join]. cbn [app join] in IH. rewrite IH by discriminate.
      rewrite <- app_assoc. reflexivity. }
    induction args as [|s args IH]; intros index limit pre Hi Hp Hl.
    - exists [], []. split; [reflexivity|]. cbn [fitting]. rewrite !app_nil_r. split; left; reflexivity.
    - cbn [fitting]. rewrite !Z.gtb_ltb. destruct (Z.leb_spec index 0) as [Z0|Z0].
      + assert (pre = []) by (apply Hp; lia). subst pre. cbn [join app].
        destruct (Z.ltb_spec limit (Z.of_nat (length s))) as [L|L].
        * exists [], (s :: args). split; [reflexivity|]. split; [left; reflexivity|]. right. cbn [app firstn join length]. lia.
        * destruct (IH (index + 1) (limit - Z.of_nat (length s)) [s]) as (wh & ot & E & A & B); try lia.
          { split; [lia|discriminate]. }
          exists (s :: wh), ot. split; [rewrite E; reflexivity|]. change (join [s]) with s in A, B. cbn [app] in *. split; [exact A|].
          destruct B as [B|B]; [left; exact B|right]. cbn [length]. lia.
      + assert (N : pre <> []) by (intros ->; assert (index = 0) by (apply Hp; reflexivity); lia).
        destruct (Z.ltb_spec limit 1) as [L1|L1].
        * exists [], (s :: args). split; [reflexivity|]. rewrite !app_nil_r. split; [left; reflexivity|]. right.
          cbn [app firstn]. rewrite J by exact N. rewrite app_length. cbn [length]. lia.
        * destruct (Z.ltb_spec (limit - 1) (Z.of_nat (length s))) as [L2|L2].
          -- exists [], (s :: args). split; [reflexivity|]. rewrite !app_nil_r. split.
             ++ right. split; [discriminate|]. split; [exact N|reflexivity].
             ++ right. cbn [app firstn]. rewrite J by exact N. rewrite app_length. cbn [length]. lia.
          -- destruct (IH (index + 1) (limit - 1 - Z.of_nat (length s)) (pre ++ [s])) as (wh & ot & E & A & B); try lia.
             { split; [lia|]. intros Q. destruct pre; discriminate. }
             exists (s :: wh), ot. split; [rewrite E; reflexivity|]. rewrite <- app_assoc in A. cbn [app] in A.
             rewrite J in A, B by exact N. rewrite <- !app_assoc in A. cbn [app] in A.
             rewrite <- !app_assoc in B. cbn [app] in B. split; [exact A|].
             destruct B as [B|B]; [left; exact B|right]. rewrite app_length in B. cbn [length] in B. cbn [app]. lia. }
  destruct (G (arguments argc argv) 0 (size - 1) [] ltac:(lia) ltac:(tauto) ltac:(lia)) as (wh & ot & E1 & A & B).
  exists wh, ot. cbn [join app length] in *. split; [exact E1|]. split; [exact A|].
  destruct B as [B|B]; [left; exact B|right; lia].
Qed.
Print Assumptions C43_whole_arguments.

Example C43_example :
  let argv := [Some [108; 115]; Some [45; 108]; Some [47]; None] in
  readable 3 argv /\ command_length 3 argv = Some 8 /\
  command_line 3 argv (repeat 7 10) 8 = Some ([108; 115; 32; 45; 108; 32; 47; 0; 7; 7], 8) /\
  command_line 3 argv (repeat 7 10) 5 = Some ([108; 115; 32; 0; 7; 7; 7; 7; 7; 7], 4).
Proof. split; [left; cbn; lia|]. vm_compute. auto. Qed.
