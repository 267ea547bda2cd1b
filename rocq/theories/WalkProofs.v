(** The walk builds each path in the buffer, and takes it back. *)

From Coq Require Import ZArith List Bool Lia.
From Verif Require Import CUtil CInt StringModel WalkModel WalkSpec.
Import ListNotations.
Local Open Scope Z_scope.

Section Induction.
  Variable P : node -> Prop.
  Hypothesis HU : forall e, P (Unseen e).
  Hypothesis HS : forall mode u l a b, Forall (fun e => P (snd e)) l -> P (Seen mode u l a b).
  Fixpoint node_induction (n : node) : P n :=
    match n with
    | Unseen e => HU e
    | Seen mode u l a b =>
        HS mode u l a b ((fix all l : Forall (fun e => P (snd e)) l := match l with [] => Forall_nil _ | (d, m) :: l => Forall_cons (d, m) (node_induction m) (all l) end) l)
    end.
End Induction.

Lemma each_Forall {A} (P : A -> Prop) l : each P l <-> Forall P l.
Proof. induction l as [|x l IH]; cbn [each]; split; auto; [intros (H & K); constructor; tauto|intros H; inversion H; tauto]. Qed.

Lemma poke_at s x y r : poke (s ++ x :: r) (length s) y = Some (s ++ y :: r).
Proof. induction s as [|z s IH]; cbn; [reflexivity|]. rewrite IH. reflexivity. Qed.
Lemma put_at s x y r i : i = Z.of_nat (length s) -> put (s ++ x :: r) i y = Some (s ++ y :: r).
Proof. intros ->. unfold put. destruct (Z.ltb_spec (Z.of_nat (length s)) 0); [lia|]. rewrite Nat2Z.id. apply poke_at. Qed.
Lemma peek_last s r : s <> [] -> peek (s ++ r) (Z.of_nat (length s) - 1) = Some (last s 0).
Proof.
  intros N. destruct (exists_last N) as (t & x & ->). rewrite last_last. unfold peek. rewrite app_length. cbn [length].
  destruct (Z.ltb_spec (Z.of_nat (length t + 1) - 1) 0); [lia|]. replace (Z.to_nat (Z.of_nat (length t + 1) - 1)) with (length t) by lia.
  rewrite <- app_assoc. rewrite nth_error_app2 by lia. rewrite Nat.sub_diag. reflexivity.
Qed.
Lemma overwrite_ok src : forall l, (length src <= length l)%nat -> overwrite l src = Some (src ++ skipn (length src) l).
Proof.
  induction src as [|x src IH]; intros l H; [destruct l; reflexivity|]. destruct l as [|y l]; cbn [length] in H; [lia|]. cbn [overwrite length skipn app]. rewrite IH by lia. reflexivity.
Qed.
Lemma strcat_ok (s name r : list Z) : string_ok s -> (length name + 1 <= length (0%Z :: r))%nat ->
  strcat (s ++ 0 :: r) name = Some ((s ++ name) ++ 0 :: skipn (length name) r).
Proof.
  intros N H. induction s as [|x s IH].
  - cbn [app strcat]. rewrite Z.eqb_refl. rewrite overwrite_ok by (rewrite app_length; exact H). rewrite <- app_assoc. rewrite app_length. cbn [length app]. rewrite Nat.add_1_r. reflexivity.
  - cbn [app strcat]. destruct (Z.eqb_spec x 0) as [-> |]; [exfalso; apply N; left; reflexivity|]. rewrite IH; [reflexivity|]. intros I. apply N. right. exact I.
Qed.
Lemma cstr_ok s r : string_ok s -> cstr (s ++ 0 :: r) = Some s.
Proof.
  intros N. induction s as [|x s IH]; cbn [app cstr]; [reflexivity|]. destruct (Z.eqb_spec x 0) as [-> |]; [exfalso; apply N; left; reflexivity|]. rewrite IH; [reflexivity|]. intros I. apply N. right. exact I.
Qed.

Lemma string_ok_app s t : string_ok s -> string_ok t -> string_ok (s ++ t).
Proof. intros H K I. apply in_app_or in I as [I|I]; [exact (H I)|exact (K I)]. Qed.
Lemma string_ok_join s t : string_ok s -> string_ok t -> string_ok (join s t).
Proof.
  intros H K. unfold join. destruct s as [|x s]; [exact K|]. destruct (_ =? 47); apply string_ok_app; try assumption. intros [I|I]; [discriminate|exact (K I)].
Qed.
Lemma join_prefix base name : exists m, join base name = base ++ m /\ (length m <= length name + 1)%nat.
Proof.
  unfold join. destruct base as [|x base]; [exists name; split; [reflexivity|lia]|]. destruct (_ =? 47); eexists; (split; [reflexivity|cbn [length]; lia]).
Qed.

Lemma is_dot_spec name : is_dot name = no_entry name.
Proof.
  unfold no_entry. destruct (in_dec _ _ _) as [[<- |[<- |[<- |[]]]]|N]; try reflexivity. destruct (is_dot name) eqn:E; [|reflexivity]. exfalso. apply N. destruct name as [|x name]; [left; reflexivity|].
  cbn [is_dot] in E. repeat match type of E with context [match ?x with _ => _ end] => destruct x; try discriminate E end; cbn; auto.
Qed.
Lemma S_ISDIR_spec mode : S_ISDIR mode = directory mode.
Proof.
  unfold S_ISDIR, directory. assert (E : Z.land mode 61440 = ((mode / 2 ^ 12) mod 2 ^ 4) * 2 ^ 12).
  { rewrite <- Z.land_ones by lia. rewrite <- Z.shiftr_div_pow2, <- Z.shiftl_mul_pow2 by lia. apply Z.bits_inj'. intros i Hi. rewrite Z.land_spec, Z.shiftl_spec by lia.
    destruct (Z.ltb_spec i 12) as [L|L].
    - rewrite (Z.testbit_neg_r _ (i - 12)) by lia. assert (i = 0 \/ i = 1 \/ i = 2 \/ i = 3 \/ i = 4 \/ i = 5 \/ i = 6 \/ i = 7 \/ i = 8 \/ i = 9 \/ i = 10 \/ i = 11) as [|[|[|[|[|[|[|[|[|[|[|]]]]]]]]]]] by lia; subst i; apply andb_false_r.
    - rewrite Z.land_spec, Z.shiftr_spec by lia. replace (i - 12 + 12) with i by lia. f_equal. replace 61440 with (Z.shiftl (Z.ones 4) 12) by reflexivity. rewrite Z.shiftl_spec by lia. reflexivity. }
  rewrite E. destruct (Z.eqb_spec ((mode / 2 ^ 12) mod 2 ^ 4 * 2 ^ 12) 16384); destruct (Z.eqb_spec ((mode / 2 ^ 12) mod 2 ^ 4) 4); lia.
Qed.
Lemma ignorable_spec errno : ignorable errno = forgiven errno.
Proof. unfold ignorable, forgiven, EACCES, ENOENT, ENOTDIR, EOVERFLOW, ENODEV. cbn [existsb]. destruct (errno =? 13), (errno =? 2), (errno =? 20), (errno =? 75), (errno =? 19); reflexivity. Qed.
Lemma ignorable_open_spec errno : ignorable_open errno = forgiven_open errno.
Proof. unfold ignorable_open, forgiven_open, EACCES, ENOENT, ENOTDIR, ENODEV. cbn [existsb]. destruct (errno =? 13), (errno =? 2), (errno =? 20), (errno =? 19); reflexivity. Qed.

Section Noting.
  Set Default Proof Using "All".
  Variable S : Type.
  Variable f : S -> visit -> Z * S.
  Notation wk := (walker (S * list (visit * Z)) (Some (noting f))).

  (** What a call of the walker does. *)
  Definition walks (n : node) (name : list Z) (base : list Z) (depth : Z) (r : option (Z * list Z * (S * list (visit * Z)))) (N : nat) (h0 : list (visit * Z)) : Prop :=
    exists rc junk s' h, r = Some (rc, base ++ junk, (s', h0 ++ h)) /\ length (base ++ junk) = N /\ (rc = 0 -> exists j, junk = 0 :: j) /\ ends n name base depth rc h.

  Lemma prefix_nil {A} (l : list A) : prefix [] l.
  Proof. exists l. reflexivity. Qed.
  Lemma completed_app a b : completed (a ++ b) <-> completed a /\ completed b.
  Proof. apply Forall_app. Qed.

  (** The loop. *)
  Definition ends_loop (l : list (list Z * node)) (base : list Z) (depth : Z) (unread : bool) (rc : Z) (h : list (visit * Z)) : Prop :=
    let all := flat_map (fun e => match e with (d_name, n) => if no_entry d_name then [] else everything n d_name base depth end) l in
    let bad := flat_map (fun e => match e with (d_name, n) => if no_entry d_name then [] else troubles n end) l ++ (if unread then [-8] else []) in
    let fit := each (fun e => match e with (d_name, n) => no_entry d_name = false -> fits n d_name base depth end) l in
    (rc = 0 /\ map fst h = all /\ completed h /\ bad = [] /\ fit) \/
    (rc <> 0 /\ prefix (map fst h) all /\
      ((exists k, halted k h /\ (rc = k \/ In rc bad)) \/ (completed h /\ (In rc bad \/ (~ fit /\ In rc [-3; -4; -5]))))).

  Lemma loop_ok recurse unread base depth N : forall l,
    Forall (fun e => forall j s h0, length (base ++ 0 :: j) = N -> walks (snd e) (fst e) base depth (recurse (snd e) (fst e) (base ++ 0 :: j) (s, h0)) N h0) l ->
    forall j s h0, length (base ++ 0 :: j) = N ->
    exists rc junk s' h, loop _ unread recurse l (base ++ 0 :: j) (s, h0) = Some (rc, base ++ junk, (s', h0 ++ h)) /\ length (base ++ junk) = N /\ junk <> [] /\ ends_loop l base depth unread rc h.
  Proof.
    induction l as [|[d n] l IH]; intros F j s h0 L; cbn [loop].
    - exists (if unread then -8 else 0), (0 :: j), s, []. rewrite app_nil_r. split; [reflexivity|]. split; [exact L|]. split; [discriminate|]. unfold ends_loop. cbn [flat_map each map app]. destruct unread.
      + right. split; [lia|]. split; [apply prefix_nil|]. right. split; [constructor|]. left. left. reflexivity.
      + left. repeat split. constructor.
    - rewrite is_dot_spec; destruct (no_entry d) eqn:D.
      + pose proof (Forall_inv_tail F) as F'. destruct (IH F' j s h0 L) as (rc & junk & s' & h & E & L' & J & En). exists rc, junk, s', h. split; [exact E|]. split; [exact L'|]. split; [exact J|].
        unfold ends_loop in *. cbn [flat_map each map]. rewrite D. cbn [app]. assert (X : forall P : Prop, (true = false -> P) /\ each (fun e => match e with (d_name, n) => no_entry d_name = false -> fits n d_name base depth end) l <-> each (fun e => match e with (d_name, n) => no_entry d_name = false -> fits n d_name base depth end) l) by (intros P; split; [tauto|]; intros H; split; [discriminate|exact H]).
        rewrite X. exact En.
      + pose proof (Forall_inv_tail F) as F'. pose proof (Forall_inv F) as H. destruct (H j s h0 L) as (rc & junk & s1 & h1 & E & L1 & J & En). cbn [fst snd] in E, En. rewrite E. unfold bind.
        destruct (Z.eqb_spec rc 0) as [-> |Nz].
        * destruct (J eq_refl) as (j1 & ->). destruct (IH F' j1 s1 (h0 ++ h1) L1) as (rc & junk & s' & h & E2 & L' & J' & En'). exists rc, junk, s', (h1 ++ h). rewrite app_assoc. split; [exact E2|]. split; [exact L'|]. split; [exact J'|].
          destruct En as [(_ & A & C & T & Fi)|(X & _)]; [|contradiction]. unfold ends_loop in *. cbn [flat_map each]. rewrite D. rewrite T. cbn [app]. rewrite map_app, A.
          destruct En' as [(-> & A' & C' & T' & Fi')|(Nz & P' & R)].
          -- left. split; [reflexivity|]. split; [rewrite A'; reflexivity|]. split; [apply completed_app; auto|]. split; [exact T'|]. split; [auto|exact Fi'].
          -- right. split; [exact Nz|]. split; [destruct P' as (k & ->); exists k; rewrite app_assoc; reflexivity|].
             destruct R as [(k & (h' & v & -> & Nk & Ch) & R)|(Ch & R)].
             ++ left. exists k. split; [|exact R]. exists (h1 ++ h'), v. rewrite app_assoc. split; [reflexivity|]. split; [exact Nk|]. apply completed_app; auto.
             ++ right. split; [apply completed_app; auto|]. destruct R as [R|(R1 & R2)]; [left; exact R|]. right. split; [|exact R2]. intros (_ & K). exact (R1 K).
        * exists rc, junk, s1, h1. split; [reflexivity|]. split; [exact L1|]. split.
          { intros ->. rewrite app_nil_r in L1. rewrite app_length in L. cbn [length] in L. lia. }
          destruct En as [(X & _)|(_ & P & R)]; [contradiction|]. unfold ends_loop. cbn [flat_map each]. rewrite D. right. split; [exact Nz|].
          split; [destruct P as (k & ->); eexists; rewrite <- app_assoc; reflexivity|].
          destruct R as [(k & Hk & R)|(Ch & R)].
          -- left. exists k. split; [exact Hk|]. destruct R as [R|R]; [left; exact R|]. right. rewrite <- app_assoc. apply in_or_app. left. exact R.
          -- right. split; [exact Ch|]. destruct R as [R|(R1 & R2)]; [left; rewrite <- app_assoc; apply in_or_app; left; exact R|]. right. split; [|exact R2]. intros (K & _). exact (R1 (K eq_refl)).
  Qed.

  Lemma walker_ok n : forall name base j depth s h0, node_ok n -> string_ok name -> string_ok base -> length (base ++ 0 :: j) = Z.to_nat SIZE ->
    walks n name base depth (wk n name (base ++ 0 :: j) (Z.of_nat (length base)) depth (s, h0)) (Z.to_nat SIZE) h0.
  Proof.
    induction n as [e|mode u l a b IH] using node_induction; intros name base j depth s h0 Ok Hn Hb L; unfold walks; cbn [walker].
    all: assert (early : forall r, In r [-3; -4; -5] -> ~ fits (Unseen 0) name base depth -> forall n', (fits n' name base depth -> fits (Unseen 0) name base depth) ->
           exists rc junk s' h, Some (r, base ++ 0 :: j, (s, h0)) = Some (rc, base ++ junk, (s', h0 ++ h)) /\ length (base ++ junk) = Z.to_nat SIZE /\ (rc = 0 -> exists j, junk = 0 :: j) /\ ends n' name base depth rc h).
    1, 3: (intros r I Nf n' Sub; exists r, (0 :: j), s, []; rewrite app_nil_r; split; [reflexivity|]; split; [exact L|]; split; [eauto|]; right;
      split; [destruct I as [<- |[<- |[<- |[]]]]; lia|]; split; [apply prefix_nil|]; right; split; [constructor|]; right; split; [|exact I]; intros K; exact (Nf (Sub K))).
    all: assert (sub : forall n', fits n' name base depth -> fits (Unseen 0) name base depth) by (intros [|]; cbn [fits]; tauto).
    all: destruct (Z.gtb_spec depth (SIZE / 2)) as [G|G]; [apply early; [cbn; auto|cbn [fits]; lia|apply sub]|].
    all: destruct (Z.eqb_spec (Z.min (Z.of_nat (length name)) SIZE) 0) as [G1|G1]; [apply early; [cbn; auto|cbn [fits]; intros (X & _); destruct name; [contradiction|]; cbn [length] in G1; unfold SIZE in G1; lia|apply sub]|].
    all: destruct (Z.gtb_spec (Z.of_nat (length base) + 1 + Z.min (Z.of_nat (length name)) SIZE + 1) SIZE) as [G2|G2]; [apply early; [cbn; auto|cbn [fits]; unfold SIZE in *; lia|apply sub]|].
    all: clear early sub.
    all: assert (Mn : Z.min (Z.of_nat (length name)) SIZE = Z.of_nat (length name)) by (unfold SIZE in *; lia); rewrite ?Mn in *; clear Mn.
    all: assert (Lj : Z.of_nat (length base) + 1 + Z.of_nat (length j) = SIZE) by (rewrite app_length in L; cbn [length] in L; unfold SIZE in *; lia).
    all: assert (B : exists j1, (let* '(path, total) := (if Z.of_nat (length base) =? 0 then Some (base ++ 0 :: j, Z.of_nat (length base)) else
              let* c := peek (base ++ 0 :: j) (Z.of_nat (length base) - 1) in
              if c =? 47 then Some (base ++ 0 :: j, Z.of_nat (length base)) else
              let* path := put (base ++ 0 :: j) (Z.of_nat (length base)) 47 in let* path := put path (Z.of_nat (length base) + 1) 0 in Some (path, Z.of_nat (length base) + 1)) in
            let* path := strcat path name in Some (path, total + Z.of_nat (length name))) = Some (join base name ++ 0 :: j1, Z.of_nat (length (join base name))) /\ length (join base name ++ 0 :: j1) = Z.to_nat SIZE).
    1, 3: (destruct (Z.eqb_spec (Z.of_nat (length base)) 0) as [Z0|Z0];
      [destruct base; [|cbn [length] in Z0; lia]; unfold bind; rewrite strcat_ok by (assumption || (cbn [length] in *; unfold SIZE in *; lia)); cbn [app join length Z.of_nat Z.add];
        eexists; split; [reflexivity|]; rewrite app_length; cbn [length]; rewrite skipn_length; cbn [length] in *; unfold SIZE in *; lia
      |rewrite peek_last by (intros ->; apply Z0; reflexivity); cbn [bind]; unfold join; destruct base as [|x base]; [exfalso; apply Z0; reflexivity|]; set (y := x :: base) in *;
       destruct (Z.eqb_spec (last y 0) 47);
       [unfold bind; rewrite strcat_ok by (assumption || (cbn [length] in *; unfold SIZE in *; lia)); rewrite (app_length y); rewrite Nat2Z.inj_add; eexists; split; [reflexivity|];
          rewrite !app_length; cbn [length]; rewrite skipn_length; unfold SIZE in *; lia
       |destruct j as [|k j]; [cbn [length] in *; exfalso; destruct name; [cbn [length] in G1; unfold SIZE in *; lia|cbn [length] in *; lia]|];
        rewrite put_at by reflexivity; cbn [bind]; replace (y ++ 47 :: k :: j) with ((y ++ [47]) ++ k :: j) by (rewrite <- app_assoc; reflexivity); rewrite put_at by (rewrite app_length; cbn [length]; lia); cbn [bind];
        rewrite strcat_ok by (first [apply string_ok_app; [assumption|intros [X|[]]; discriminate] | cbn [length] in *; unfold SIZE in *; lia]); cbn [bind];
        rewrite <- (app_assoc y [47] name); cbn [app]; rewrite (app_length y); cbn [length]; eexists; split; [f_equal; f_equal; lia|];
        rewrite !app_length; cbn [length]; rewrite skipn_length; cbn [length] in *; unfold SIZE in *; lia]]).
    all: destruct B as (j1 & B & L1).
    all: match type of B with context [bind ?x _] => destruct x as [[path total]|]; [|discriminate B] end; cbn [bind] in B |- *.
    all: destruct (strcat path name) as [path1|]; [|discriminate B]; cbn [bind] in B |- *; injection B as -> Bt; rewrite ?Bt; clear Bt.
    all: destruct (join_prefix base name) as (m & M & Lm).
    all: assert (back : forall r, exists j2, put (base ++ m ++ 0 :: r) (Z.of_nat (length base)) 0 = Some (base ++ 0 :: j2)) by
      (intros r; assert (exists y t, m ++ 0 :: r = y :: t) as (y & t & ->) by (destruct m; cbn; eauto); exists t; rewrite put_at by reflexivity; reflexivity).
    all: assert (fine : name <> [] /\ Z.of_nat (length base) + Z.of_nat (length name) + 2 <= SIZE /\ depth <= SIZE / 2) by
      (split; [intros ->; cbn [length] in G1; unfold SIZE in *; lia|split; lia]).
    - rewrite ignorable_spec; destruct (forgiven e) eqn:I.
      + destruct (back j1) as (j2 & B). rewrite M, <- app_assoc, B. cbn [bind]. exists 0, (0 :: j2), s, []. rewrite app_nil_r. split; [reflexivity|]. split.
        { assert (length (base ++ 0 :: j2) = length (base ++ m ++ 0 :: j1)) as ->; [|rewrite app_assoc, <- M; exact L1].
          unfold put in B. destruct (_ <? 0); [discriminate|]. clear -B. revert B. generalize (Z.to_nat (Z.of_nat (length base))). generalize (base ++ 0 :: j2). generalize (base ++ m ++ 0 :: j1).
          intros p q i. revert p q i. induction p as [|x p IHp]; intros q i B; [destruct i; discriminate|]. destruct i; cbn [poke] in B; [injection B as <-; reflexivity|]. destruct (poke p i 0) eqn:E; [|discriminate]. injection B as <-. cbn [length]. f_equal. exact (IHp _ _ E). }
        split; [eauto|]. left. split; [reflexivity|]. split; [reflexivity|]. split; [constructor|]. cbn [troubles]. rewrite I. split; [reflexivity|]. cbn [fits]. tauto.
      + exists (-6), (m ++ 0 :: j1), s, []. rewrite app_nil_r, M, <- app_assoc. split; [reflexivity|]. split; [rewrite app_assoc, <- M; exact L1|]. split; [discriminate|]. right. split; [lia|]. split; [apply prefix_nil|]. right. split; [constructor|]. left. cbn [troubles]. rewrite I. left. reflexivity.
    - rewrite cstr_ok by (apply string_ok_join; assumption). cbn [bind call]. unfold noting at 1. cbn [fst snd]. destruct (f s (Visit name (join base name) depth mode)) as [rc s1]. cbn [fst snd].
      set (v := Visit name (join base name) depth mode) in *.
      assert (lens : forall r j2, put (base ++ m ++ r) (Z.of_nat (length base)) 0 = Some (base ++ 0 :: j2) -> length (base ++ m ++ r) = Z.to_nat SIZE -> length (base ++ 0 :: j2) = Z.to_nat SIZE).
      { intros r j2 B <-. unfold put in B. destruct (_ <? 0); [discriminate|]. clear -B. revert B. generalize (Z.to_nat (Z.of_nat (length base))). generalize (base ++ 0 :: j2). generalize (base ++ m ++ r).
          intros p q i. revert p q i. induction p as [|x p IHp]; intros q i B; [destruct i; discriminate|]. destruct i; cbn [poke] in B; [injection B as <-; reflexivity|]. destruct (poke p i 0) eqn:E; [|discriminate]. injection B as <-. cbn [length]. f_equal. exact (IHp _ _ E). }
      assert (Lm1 : length (base ++ m ++ 0 :: j1) = Z.to_nat SIZE) by (rewrite app_assoc, <- M; exact L1).
      destruct (Z.eqb_spec rc 0) as [-> |Nz]; cbn [negb].
      2: { exists rc, (m ++ 0 :: j1), s1, [(v, rc)]. rewrite M, <- app_assoc. split; [reflexivity|]. split; [exact Lm1|]. split; [contradiction|]. right. split; [exact Nz|]. split; [eexists; cbn [everything map fst app]; reflexivity|].
           left. exists rc. split; [|left; reflexivity]. exists [], v. split; [reflexivity|]. split; [exact Nz|constructor]. }
      assert (simple : forall T, troubles (Seen mode u l a b) = T -> everything (Seen mode u l a b) name base depth = [v] -> (T = [] -> fits (Seen mode u l a b) name base depth) -> T = [] ->
        exists rc junk s' h, (let* path := put (join base name ++ 0 :: j1) (Z.of_nat (length base)) 0 in Some (0, path, (s1, h0 ++ [(v, 0)]))) = Some (rc, base ++ junk, (s', h0 ++ h)) /\ length (base ++ junk) = Z.to_nat SIZE /\ (rc = 0 -> exists j, junk = 0 :: j) /\ ends (Seen mode u l a b) name base depth rc h).
      { intros T E1 E2 E3 ->. destruct (back j1) as (j2 & B). exists 0, (0 :: j2), s1, [(v, 0)]. rewrite M, <- app_assoc, B. cbn [bind]. split; [reflexivity|]. split; [exact (lens _ _ B Lm1)|]. split; [eauto|].
        left. split; [reflexivity|]. split; [symmetry; exact E2|]. split; [repeat constructor|]. split; [exact E1|]. apply E3. reflexivity. }
      rewrite S_ISDIR_spec; destruct (directory mode) eqn:D.
      + destruct u as [e|].
        * rewrite ignorable_open_spec; destruct (forgiven_open e) eqn:I.
          -- apply (simple []); [cbn [troubles]; rewrite D, I; reflexivity|cbn [everything]; rewrite D; reflexivity| |reflexivity]. intros _. cbn [fits]. rewrite D. tauto.
          -- exists (-7), (m ++ 0 :: j1), s1, [(v, 0)]. rewrite M, <- app_assoc. split; [reflexivity|]. split; [exact Lm1|]. split; [discriminate|]. right. split; [lia|]. split; [eexists; cbn [everything map fst app]; reflexivity|].
             right. split; [repeat constructor|]. left. cbn [troubles]. rewrite D, I. left. reflexivity.
        * clear simple. cbn [node_ok] in Ok. rewrite each_Forall in Ok.
          destruct (loop_ok (fun n d path s => wk n d path (Z.of_nat (length (join base name))) (depth + 1) s) a (join base name) (depth + 1) (Z.to_nat SIZE) l) with (j := j1) (s := s1) (h0 := h0 ++ [(v, 0)]) as (rc & junk & s' & h & E & L2 & J & En).
          { rewrite Forall_forall in *. intros [d n] I. specialize (IH _ I). specialize (Ok _ I). cbn [fst snd] in *. destruct Ok as (Sd & Nd). intros j' s' h' L'. apply IH; try assumption. apply string_ok_join; assumption. }
          { exact L1. }
          rewrite E. cbn [bind]. assert (exists y t, m ++ junk = y :: t) as (y & t & Em) by (destruct m as [|y t]; [destruct junk; [contradiction|cbn; eauto]|cbn; eauto]).
          rewrite M, <- app_assoc in L2 |- *. assert (B : put (base ++ m ++ junk) (Z.of_nat (length base)) 0 = Some (base ++ 0 :: t)) by (rewrite Em; apply put_at; reflexivity).
          rewrite B. cbn [bind]. exists (if b then -9 else rc), (0 :: t), s', ([(v, 0)] ++ h). rewrite <- app_assoc. split; [reflexivity|]. split; [exact (lens _ _ B L2)|]. split; [eauto|].
          unfold ends_loop in En. unfold ends. cbn [everything troubles fits]. rewrite D. fold v. cbn [app map fst].
          set (all := flat_map (B := visit) _ l) in *. set (bad := flat_map (B := Z) _ l) in *. set (fit := each _ l) in *. destruct b.
          -- right. split; [lia|]. assert (P : prefix (map fst h) all) by (destruct En as [(_ & -> & _)|(_ & P & _)]; [exists []; rewrite app_nil_r; reflexivity|exact P]). split; [destruct P as (k & ->); exists k; reflexivity|].
             assert (T9 : In (-9) (bad ++ (if a then [-8] else []) ++ [-9])) by (apply in_or_app; right; apply in_or_app; right; left; reflexivity).
             destruct En as [(_ & _ & C & _)|(_ & _ & [(k & (h' & w & -> & Nk & Ch) & _)|(C & _)])].
             ++ right. split; [constructor; [reflexivity|exact C]|]. left. exact T9.
             ++ left. exists k. split; [|right; exact T9]. exists ((v, 0) :: h'), w. split; [reflexivity|]. split; [exact Nk|]. constructor; [reflexivity|exact Ch].
             ++ right. split; [constructor; [reflexivity|exact C]|]. left. exact T9.
          -- rewrite app_nil_r. destruct En as [(-> & A & C & T & Fi)|(Nz & P & R)].
             ++ left. split; [reflexivity|]. split; [rewrite A; reflexivity|]. split; [constructor; [reflexivity|exact C]|]. split; [exact T|]. tauto.
             ++ right. split; [exact Nz|]. split; [destruct P as (k & ->); exists k; reflexivity|]. destruct R as [(k & (h' & w & -> & Nk & Ch) & R)|(C & R)].
                ** left. exists k. split; [|exact R]. exists ((v, 0) :: h'), w. split; [reflexivity|]. split; [exact Nk|]. constructor; [reflexivity|exact Ch].
                ** right. split; [constructor; [reflexivity|exact C]|]. destruct R as [R|(R1 & R2)]; [left; exact R|]. right. split; [|exact R2]. tauto.
      + apply (simple []); [cbn [troubles]; rewrite D; reflexivity|cbn [everything]; rewrite D; reflexivity| |reflexivity]. intros _. cbn [fits]. rewrite D. tauto.
  Qed.
End Noting.
