From Coq Require Import ZArith List Bool Lia Arith.
From Verif Require Import CInt StringModel StringSpec.
Import ListNotations.
Local Open Scope Z_scope.

Lemma poke_app l i x a b y : l = a ++ y :: b -> length a = i -> poke l i x = Some (a ++ x :: b).
Proof.
  intros -> <-. induction a as [|z a IH]; [reflexivity|]. cbn. rewrite IH. reflexivity.
Qed.

Lemma poke_over buf w x : (length w < length buf)%nat ->
  poke (over buf w) (length w) x = Some (over buf (w ++ [x])).
Proof.
  intros H. unfold over.
  destruct (skipn (length w) buf) as [|y r] eqn:E.
  - apply (f_equal (@length Z)) in E. rewrite skipn_length in E. cbn in E. lia.
  - rewrite (poke_app _ _ x w r y eq_refl eq_refl). f_equal. rewrite <- app_assoc. cbn [app]. f_equal. f_equal.
    rewrite app_length. cbn [length]. rewrite Nat.add_1_r.
    clear H x. revert buf E. induction w as [|z w IH]; intros buf E; destruct buf as [|c buf]; cbn in *; try discriminate; [congruence|].
    apply IH, E.
Qed.

Lemma over_nil buf : over buf [] = buf.
Proof. reflexivity. Qed.

Lemma over_length buf w : (length w <= length buf)%nat -> length (over buf w) = length buf.
Proof. intros H. unfold over. rewrite app_length, skipn_length. lia. Qed.

Lemma poke_all_over : forall s buf w, (length w + length s <= length buf)%nat ->
  poke_all (over buf w) (length w) s = Some (over buf (w ++ s)).
Proof.
  induction s as [|x s IH]; intros buf w H; cbn [poke_all].
  - rewrite app_nil_r. reflexivity.
  - cbn [length] in H. rewrite poke_over by lia.
    replace (S (length w)) with (length (w ++ [x])) by (rewrite app_length; cbn; lia).
    rewrite IH by (rewrite app_length; cbn; lia). rewrite <- app_assoc. reflexivity.
Qed.

Lemma copy_loop_spec : forall fuel src w dest s n r, (length s < fuel)%nat -> src = s ++ 0 :: r -> text s -> 1 <= n ->
  (length w + Z.to_nat n <= length dest)%nat ->
  copy_loop fuel (over dest w) (length w) src n = Some (over dest (w ++ firstn (Z.to_nat (n - 1)) s ++ [0])).
Proof.
  induction fuel as [|fuel IH]; intros src w dest s n r Hf -> Ht Hn Hl; [lia|].
  cbn [copy_loop]. rewrite !Z.gtb_ltb. destruct (Z.ltb_spec 1 n) as [L|L].
  - destruct s as [|c s].
    + cbn [app]. replace (negb (0 =? 0)) with false by reflexivity. destruct (Z.ltb_spec 0 n); [|lia].
      rewrite poke_over by lia. rewrite firstn_nil. reflexivity.
    + cbn [app]. destruct (Z.eqb_spec c 0) as [->|Nc]; [exfalso; apply Ht; left; reflexivity|]. cbn [negb].
      rewrite poke_over by lia. replace (S (length w)) with (length (w ++ [c])) by (rewrite app_length; cbn; lia).
      rewrite (IH _ _ _ s (n - 1) r); try reflexivity; try lia.
      * f_equal. f_equal. rewrite <- app_assoc. cbn [app]. f_equal.
        replace (Z.to_nat (n - 1)) with (S (Z.to_nat (n - 1 - 1))) by lia. reflexivity.
      * cbn [length] in Hf. lia.
      * intros Hin. apply Ht. right. exact Hin.
      * rewrite app_length. cbn. lia.
  - assert (n = 1) by lia. subst n. cbn [Z.ltb Z.compare]. rewrite poke_over by lia. reflexivity.
Qed.

Lemma copy_spec dest s r n : text s -> 0 <= n -> (Z.to_nat n <= length dest)%nat ->
  string_copy dest (s ++ 0 :: r) n =
  Some (if n =? 0 then dest else over dest (firstn (Z.to_nat (n - 1)) s ++ [0])).
Proof.
  intros Ht Hn Hl. unfold string_copy. destruct (Z.eqb_spec n 0) as [->|N].
  - destruct (s ++ 0 :: r); reflexivity.
  - rewrite <- (over_nil dest) at 1. change O with (length (@nil Z)).
    rewrite (copy_loop_spec _ _ [] dest s n r); auto; try lia; try reflexivity.
    rewrite app_length. cbn. lia.
Qed.

Lemma strrchr_none s c : strrchr s c = None <-> ~ In c s.
Proof.
  induction s as [|x s IH]; cbn; [tauto|]. destruct (strrchr s c) as [p|].
  - split; [discriminate|]. intros H. exfalso. apply H. right.
    destruct (in_dec Z.eq_dec c s) as [I|I]; [exact I|]. apply IH in I. discriminate.
  - destruct (Z.eqb_spec x c) as [->|N]; [split; [discriminate|tauto]|]. split; [|reflexivity]. intros _ [E|I]; [auto|].
    apply IH in I; auto.
Qed.
Lemma strrchr_some s c p : strrchr s c = Some p -> exists a b, s = a ++ p /\ p = c :: b /\ ~ In c b.
Proof.
  revert p. induction s as [|x s IH]; intros p; cbn; [discriminate|]. destruct (strrchr s c) as [q|] eqn:E.
  - intros [= ->]. destruct (IH p eq_refl) as (a & b & -> & -> & H). exists (x :: a), b. auto.
  - destruct (Z.eqb_spec x c) as [->|N]; [|discriminate]. intros [= <-]. exists [], s. repeat split. apply strrchr_none, E.
Qed.

Lemma basename_spec path : exists dir, path = dir ++ basename path /\ ~ In 47 (basename path) /\
  (dir = [] \/ exists d, dir = d ++ [47]).
Proof.
  unfold basename. destruct (strrchr path 47) as [p|] eqn:E.
  - destruct (strrchr_some _ _ _ E) as (a & b & -> & -> & H). exists (a ++ [47]). cbn [tl].
    rewrite <- app_assoc. split; [reflexivity|]. split; [exact H|]. right. exists a. reflexivity.
  - exists []. split; [reflexivity|]. split; [apply strrchr_none, E|]. left. reflexivity.
Qed.

(* ------------------------------------------------------------ command *)

(** What follows argument number [index] on. *)
Definition tail_text (index : Z) (args : list (list Z)) : list Z :=
  if index <=? 0 then join args else match args with [] => [] | _ => 32 :: join args end.

Lemma tail_text_cons index s args : 0 <= index ->
  tail_text index (s :: args) = (if index <=? 0 then [] else [32]) ++ s ++ tail_text (index + 1) args.
Proof.
  intros H. unfold tail_text. replace (index + 1 <=? 0) with false by (symmetry; apply Z.leb_gt; lia).
  destruct (index <=? 0); destruct args as [|t args]; cbn [join]; rewrite ?app_nil_r; cbn [app]; rewrite ?app_nil_r; auto.
Qed.

Lemma readable_cons argc s argv : readable (S argc) (Some s :: argv) -> readable argc argv.
Proof. intros [H|[H|H]]; [left; cbn in H; lia|discriminate|right; exact H]. Qed.

Lemma length_loop_spec : forall argc index argv total, 0 <= index -> readable argc argv ->
  length_loop argc index argv total = Some (total + Z.of_nat (length (tail_text index (arguments argc argv))) + 1).
Proof.
  induction argc as [|argc IH]; intros index argv total Hi Hr; cbn [length_loop arguments].
  - f_equal. unfold tail_text. destruct (index <=? 0); cbn; lia.
  - destruct argv as [|[s|] argv].
    + destruct Hr as [H|[]]. cbn in H. lia.
    + rewrite IH; [|lia|exact (readable_cons _ _ _ Hr)]. f_equal. rewrite tail_text_cons by exact Hi.
      rewrite !app_length, Z.gtb_ltb. destruct (Z.leb_spec index 0); destruct (Z.ltb_spec 0 index); cbn [length]; lia.
    + f_equal. unfold tail_text. destruct (index <=? 0); cbn; lia.
Qed.

(** The joined text that fits: whole arguments as long as they fit; a blank that
    fits is written even when the argument after it is not. *)
Fixpoint fitting (index : Z) (args : list (list Z)) (limit : Z) : list Z :=
  match args with
  | [] => []
  | s :: args =>
      if index <=? 0 then
        if Z.of_nat (length s) >? limit then [] else s ++ fitting (index + 1) args (limit - Z.of_nat (length s))
      else if 1 >? limit then []
      else 32 :: if Z.of_nat (length s) >? limit - 1 then []
                 else s ++ fitting (index + 1) args (limit - 1 - Z.of_nat (length s))
  end.

Lemma fitting_length : forall args index limit, 0 <= limit -> Z.of_nat (length (fitting index args limit)) <= limit.
Proof.
  induction args as [|s args IH]; intros index limit H; cbn [fitting]; [cbn; lia|].
  destruct (index <=? 0); rewrite !Z.gtb_ltb.
  - destruct (Z.ltb_spec limit (Z.of_nat (length s))); [cbn; lia|]. rewrite app_length.
    specialize (IH (index + 1) (limit - Z.of_nat (length s))). lia.
  - destruct (Z.ltb_spec limit 1); [cbn; lia|]. cbn [length]. destruct (Z.ltb_spec (limit - 1) (Z.of_nat (length s))); [cbn; lia|].
    rewrite app_length. specialize (IH (index + 1) (limit - 1 - Z.of_nat (length s))). lia.
Qed.

Lemma fitting_all : forall args index limit, 0 <= index -> Z.of_nat (length (tail_text index args)) <= limit ->
  fitting index args limit = tail_text index args.
Proof.
  induction args as [|s args IH]; intros index limit Hi H.
  - unfold tail_text. destruct (index <=? 0); reflexivity.
  - rewrite tail_text_cons in * by exact Hi. cbn [fitting]. rewrite !app_length in H. destruct (index <=? 0); rewrite !Z.gtb_ltb; cbn [length app] in *.
    + destruct (Z.ltb_spec limit (Z.of_nat (length s))); [lia|]. rewrite IH; [reflexivity|lia|lia].
    + destruct (Z.ltb_spec limit 1); [lia|]. destruct (Z.ltb_spec (limit - 1) (Z.of_nat (length s))); [lia|].
      rewrite IH; [reflexivity|lia|lia].
Qed.

Lemma fitting_prefix : forall args index limit, 0 <= index ->
  exists rest, tail_text index args = fitting index args limit ++ rest.
Proof.
  induction args as [|s args IH]; intros index limit Hi.
  - exists []. unfold tail_text. destruct (index <=? 0); reflexivity.
  - rewrite tail_text_cons by exact Hi. cbn [fitting]. destruct (index <=? 0); rewrite !Z.gtb_ltb.
    + destruct (Z.ltb_spec limit (Z.of_nat (length s))); [eexists; reflexivity|].
      destruct (IH (index + 1) (limit - Z.of_nat (length s)) ltac:(lia)) as (r & E). exists r. cbn [app]. rewrite E, app_assoc. reflexivity.
    + destruct (Z.ltb_spec limit 1); [eexists; reflexivity|].
      destruct (Z.ltb_spec (limit - 1) (Z.of_nat (length s))); [exists (s ++ tail_text (index + 1) args); reflexivity|].
      destruct (IH (index + 1) (limit - 1 - Z.of_nat (length s)) ltac:(lia)) as (r & E). exists r. cbn [app]. rewrite E, app_assoc. reflexivity.
Qed.

Lemma line_end_spec buf w total : (length w < length buf)%nat -> total = Z.of_nat (length w) ->
  line_end (over buf w) (length w) total = Some (over buf (w ++ [0]), Z.of_nat (length w) + 1).
Proof. intros H ->. unfold line_end. rewrite poke_over by exact H. reflexivity. Qed.

Lemma line_loop_spec : forall argc index argv buf w limit, 0 <= index -> readable argc argv -> 0 <= limit ->
  Z.of_nat (length w) + limit < Z.of_nat (length buf) ->
  let out := w ++ fitting index (arguments argc argv) limit in
  line_loop argc index argv (over buf w) (length w) limit (Z.of_nat (length w)) =
  Some (over buf (out ++ [0]), Z.of_nat (length out) + 1).
Proof.
  induction argc as [|argc IH]; intros index argv buf w limit Hi Hr Hl Hb; cbn [line_loop arguments].
  - cbn [fitting]. rewrite app_nil_r. apply line_end_spec; [lia|reflexivity].
  - destruct argv as [|[s|] argv].
    + destruct Hr as [H|[]]. cbn in H. lia.
    + cbn [fitting]. apply readable_cons in Hr. destruct (index <=? 0); rewrite !Z.gtb_ltb.
      * destruct (Z.ltb_spec limit (Z.of_nat (length s))).
        { rewrite app_nil_r. apply line_end_spec; [lia|reflexivity]. }
        rewrite poke_all_over by lia. rewrite <- app_length. rewrite <- Nat2Z.inj_add, <- app_length.
        rewrite app_assoc. apply IH; auto; try lia. rewrite app_length. lia.
      * destruct (Z.ltb_spec limit 1).
        { rewrite app_nil_r. apply line_end_spec; [lia|reflexivity]. }
        rewrite poke_over by lia. replace (S (length w)) with (length (w ++ [32])) by (rewrite app_length; cbn; lia).
        replace (Z.of_nat (length w) + 1) with (Z.of_nat (length (w ++ [32]))) by (rewrite app_length; cbn; lia).
        destruct (Z.ltb_spec (limit - 1) (Z.of_nat (length s))).
        { apply line_end_spec; [rewrite app_length; cbn [length]; lia|reflexivity]. }
        rewrite poke_all_over by (rewrite app_length; cbn [length]; lia). rewrite <- app_length. rewrite <- Nat2Z.inj_add, <- app_length.
        replace (w ++ 32 :: s ++ fitting (index + 1) (arguments argc argv) (limit - 1 - Z.of_nat (length s)))
          with (((w ++ [32]) ++ s) ++ fitting (index + 1) (arguments argc argv) (limit - 1 - Z.of_nat (length s)))
          by (rewrite <- !app_assoc; reflexivity).
        apply IH; [lia|exact Hr|lia|]. rewrite !app_length. cbn [length]. lia.
    + cbn [fitting]. rewrite app_nil_r. apply line_end_spec; [lia|reflexivity].
Qed.

Lemma line_spec argc argv buf size : readable argc argv -> 1 <= size <= Z.of_nat (length buf) ->
  let out := fitting 0 (arguments argc argv) (size - 1) in
  command_line argc argv buf size = Some (over buf (out ++ [0]), Z.of_nat (length out) + 1).
Proof.
  intros Hr Hs. unfold command_line. rewrite Z.gtb_ltb. destruct (Z.ltb_spec 0 size); [|lia].
  pose proof (line_loop_spec argc 0 argv buf [] (size - 1) ltac:(lia) Hr ltac:(lia) ltac:(cbn; lia)) as L.
  cbn [app length] in L. exact L.
Qed.
