(** Paths, taken apart and put together. *)

From Coq Require Import ZArith List Bool Lia.
From Verif Require Import CUtil CInt StringModel WalkModel WalkSpec WalkProofs FsModel FsSpec.
Import ListNotations.
Local Open Scope Z_scope.

(** Tokens. *)
Lemma split_cons d x l : x <> d -> exists a r, split d l = a :: r /\ split d (x :: l) = (x :: a) :: r.
Proof.
  intros N. cbn [split]. destruct (Z.eqb_spec x d); [contradiction|]. destruct (split d l) as [|a r] eqn:E; [|eauto]. destruct l as [|y l]; cbn [split] in E; [discriminate|]. destruct (y =? d); [discriminate|]. destruct (split d l); discriminate.
Qed.
Lemma skip_ok d l : forall pos l' pos', skip d l pos = (l', pos') ->
  components d l = components d l' /\ pos' - pos + Z.of_nat (length l') = Z.of_nat (length l) /\ pos <= pos' /\ (l' = [] \/ hd d l' <> d) /\ (pos' = pos -> l' = l) /\ (pos < pos' -> hd (d + 1) l = d) /\ (forall x, In x l' -> In x l).
Proof.
  induction l as [|x l IH]; intros pos l' pos' H; cbn [skip] in H.
  - injection H as <- <-. cbn [length]. repeat split; auto; lia.
  - destruct (Z.eqb_spec x d) as [-> |N].
    + destruct (IH _ _ _ H) as (C & L & P & Hd & _ & _ & I). unfold components in *. cbn [split]. rewrite Z.eqb_refl. cbn [filter length]. repeat split; auto; try lia. intros y Hy. right. auto.
    + injection H as <- <-. repeat split; auto; try lia.
Qed.
Lemma cut_ok d l : forall a b, cut d l = (a, b) -> l <> [] -> hd d l <> d ->
  components d l = a :: components d b /\ a <> [] /\ ~ In d a /\ (Z.of_nat (length a) + 1 + Z.of_nat (length b) = Z.of_nat (length l) \/ (b = [] /\ length a = length l)) /\ (forall x, In x a \/ In x b -> In x l).
Proof.
  assert (G : forall l a b, cut d l = (a, b) -> exists r, split d l = a :: r /\ (filter (fun x => match x with [] => false | _ => true end) r = components d b) /\ ~ In d a /\ (Z.of_nat (length a) + 1 + Z.of_nat (length b) = Z.of_nat (length l) \/ (b = [] /\ length a = length l)) /\ (forall x, In x a \/ In x b -> In x l)).
  { clear l. induction l as [|x l IH]; intros a b H; cbn [cut] in H.
    - injection H as <- <-. exists []. repeat split; auto; try tauto.
    - destruct (Z.eqb_spec x d) as [-> |N].
      + injection H as <- <-. exists (split d l). cbn [split]. rewrite Z.eqb_refl. repeat split; auto; cbn [length]; try lia. intros y [[]|Hy]. right. exact Hy.
      + destruct (cut d l) as [a' b'] eqn:E. injection H as <- <-. destruct (IH _ _ eq_refl) as (r & S & C & Nd & L & I). destruct (split_cons d x l N) as (a0 & r0 & S' & S''). rewrite S in S'. injection S' as <- <-. exists r. rewrite S''. split; [reflexivity|]. split; [exact C|].
        split; [intros [X|X]; [exact (N X)|exact (Nd X)]|]. cbn [length]. split; [destruct L as [L|(-> & L)]; [left; lia|right; split; [reflexivity|lia]]|]. intros y [[<- |Hy]|Hy]; [left; reflexivity|right; apply I; auto|right; apply I; auto]. }
  intros a b H Ne Hd. destruct (G l a b H) as (r & S & C & Nd & L & I). assert (Na : a <> []).
  { destruct l as [|x l]; [contradiction|]. cbn [hd] in Hd. cbn [cut] in H. destruct (Z.eqb_spec x d); [contradiction|]. destruct (cut d l). injection H as <- <-. discriminate. }
  split; [|auto]. unfold components at 1. rewrite S. cbn [filter]. destruct a; [contradiction|]. rewrite C. reflexivity.
Qed.
Lemma strtok_none d l pos : strtok d l pos = None -> components d l = [].
Proof.
  unfold strtok. destruct (skip d l pos) as [l' pos'] eqn:E. destruct (skip_ok _ _ _ _ _ E) as (C & _). rewrite C. destruct l' as [|x l']; [reflexivity|]. destruct (cut d (x :: l')); discriminate.
Qed.
Lemma strtok_some d l pos token at_ rest pos' : strtok d l pos = Some (token, at_, rest, pos') ->
  components d l = token :: components d rest /\ token <> [] /\ pos <= at_ /\ pos' = at_ + Z.of_nat (length token) + 1 /\
  at_ - pos + Z.of_nat (length token) <= Z.of_nat (length l) /\ (rest = [] \/ pos' + Z.of_nat (length rest) <= pos + Z.of_nat (length l)) /\ (length rest < length l)%nat /\ (at_ = pos <-> hd (d + 1) l <> d) /\ (forall x, In x token \/ In x rest -> In x l).
Proof.
  unfold strtok. destruct (skip d l pos) as [l' p1] eqn:E. destruct (skip_ok _ _ _ _ _ E) as (C & L & P & Hd & Eq & Lt & I). destruct l' as [|x l']; [discriminate|].
  destruct (cut d (x :: l')) as [a b] eqn:K. intros H. injection H as <- <- <- <-. destruct Hd as [Hd|Hd]; [discriminate|]. destruct (cut_ok d (x :: l') a b K) as (C' & Na & _ & L' & I'); [discriminate|exact Hd|].
  rewrite C, C'. assert (La : (0 < length a)%nat) by (destruct a; [contradiction|cbn; lia]).
  assert (Lx : (length b < length (x :: l'))%nat) by (destruct L' as [L'|(-> & L')]; cbn [length] in *; lia).
  split; [reflexivity|]. split; [exact Na|]. split; [exact P|]. split; [reflexivity|].
  split; [destruct L' as [L'|(-> & L')]; cbn [length] in *; lia|]. split; [destruct L' as [L'|(-> & L')]; [right; cbn [length] in *; lia|left; reflexivity]|]. split; [lia|]. split; [split|auto].
  - intros ->. rewrite <- (Eq eq_refl). exact Hd.
  - intros X. destruct (Z.eq_dec p1 pos) as [|Np]; [assumption|]. exfalso. apply X. apply Lt. lia.
Qed.

(** Making directories. *)
Section Mkdir.
  Set Default Proof Using "All".
  Variable F : Type.
  Variable mkdir : F -> list Z -> option Z * F.
  Lemma make_some e fs d l : mkdir fs d = (Some e, fs) \/ True -> forall fs', mkdir fs d = (Some e, fs') -> make mkdir fs (d :: l) = if e =? EEXIST then make mkdir fs' l else (-1, fs').
  Proof.
    intros _ fs' H. cbn [make]. rewrite H. unfold EEXIST. destruct (Z.eqb_spec e 17) as [-> |N]; [reflexivity|].
    destruct e as [|p|p]; try reflexivity. destruct p as [p|p|]; try reflexivity. destruct p as [p|p|]; try reflexivity. destruct p as [p|p|]; try reflexivity. destruct p as [p|p|]; try reflexivity. destruct p as [p|p|]; try reflexivity. contradiction.
  Qed.
  Lemma mkdir_loop_ok fuel : forall rest pos s j fs, (length rest < fuel)%nat -> 1 <= pos -> string_ok s -> string_ok rest -> Z.of_nat (length s) <= pos - 1 -> (rest = [] \/ pos + Z.of_nat (length rest) < Z.of_nat (length (s ++ 0 :: j))) ->
    mkdir_loop F mkdir fuel rest pos (s ++ 0 :: j) fs = Some (make mkdir fs (within (s ++ [47]) (components 47 rest))).
  Proof.
    induction fuel as [|fuel IH]; intros rest pos s j fs Fu Po Hs Hr Ls Lt; [lia|]. cbn [mkdir_loop].
    destruct (strtok 47 rest pos) as [[[[token at_] rest'] pos']|] eqn:E; [|rewrite (strtok_none _ _ _ E); reflexivity].
    destruct (strtok_some _ _ _ _ _ _ _ E) as (C & Nt & Pa & Pp & La & Lp & Lr & _ & I). rewrite C. cbn [within]. destruct Lt as [-> |Lt]; [discriminate E|]. rewrite app_length in Lt. cbn [length] in Lt.
    destruct (Z.eqb_spec at_ 0); [lia|]. cbn [negb].
    rewrite strcat_ok by (assumption || (cbn [length]; destruct token; [contradiction|]; cbn [length] in *; lia)). cbn [bind].
    assert (Ht : string_ok token) by (intros X; apply Hr; apply I; auto).
    assert (H47 : string_ok (s ++ [47])) by (apply string_ok_app; [assumption|intros [X|[]]; discriminate]).
    rewrite strcat_ok by (assumption || (cbn [length]; rewrite skipn_length; cbn [length]; lia)). cbn [bind].
    rewrite cstr_ok by (apply string_ok_app; assumption). cbn [bind].
    assert (R : forall fs, mkdir_loop F mkdir fuel rest' pos' (((s ++ [47]) ++ token) ++ 0 :: skipn (length token) (skipn (length [47]) j)) fs = Some (make mkdir fs (within ((s ++ [47]) ++ token ++ [47]) (components 47 rest')))).
    { intros fs'. rewrite IH; [rewrite <- !app_assoc; reflexivity|lia|lia|apply string_ok_app; assumption|intros X; apply Hr; apply I; auto| |].
      - rewrite !app_length. cbn [length]. lia.
      - destruct Lp as [Lp|Lp]; [left; exact Lp|right]. rewrite !app_length. cbn [length]. rewrite !skipn_length. cbn [length]. lia. }
    destruct (mkdir fs ((s ++ [47]) ++ token)) as [[e|] fs'] eqn:M.
    - rewrite (make_some e fs _ _ (or_intror Logic.I) fs' M). destruct (e =? EEXIST); [apply R|reflexivity].
    - cbn [make]. rewrite M. apply R.
  Qed.
  Lemma mkdir_first source N fs : string_ok source -> (length source < N)%nat ->
    mkdir_loop F mkdir (S (length source)) source 0 (repeat 0 N) fs = Some (make mkdir fs (directories source)).
  Proof.
    intros Hr L. cbn [mkdir_loop]. unfold directories. destruct (strtok 47 source 0) as [[[[token at_] rest'] pos']|] eqn:E; [|rewrite (strtok_none _ _ _ E); reflexivity].
    destruct (strtok_some _ _ _ _ _ _ _ E) as (C & Nt & Pa & Pp & La & Lp & Lr & Hd & I). rewrite C. cbn [within].
    destruct N as [|N]; [lia|]. cbn [repeat]. change (0 :: repeat 0 N) with ([] ++ 0 :: repeat 0 N).
    assert (Ht : string_ok token) by (intros X; apply Hr; apply I; auto).
    assert (Lt : (0 < length token)%nat) by (destruct token; [contradiction|cbn; lia]).
    set (lead := if hd 0 source =? 47 then [47] else []). assert (Hl : string_ok lead) by (unfold lead; destruct (_ =? 47); [intros [X|[]]; discriminate|intros []]).
    assert (B : exists j, (if negb (at_ =? 0) then strcat ([] ++ 0 :: repeat 0 N) [47] else Some ([] ++ 0 :: repeat 0 N)) = Some (lead ++ 0 :: j) /\ Z.of_nat (length lead) <= at_ /\ length (lead ++ 0 :: j) = S N).
    { unfold lead. assert (Hh : hd 0 source = 47 <-> hd (47 + 1) source = 47) by (destruct source; [cbn; lia|reflexivity]).
      destruct (Z.eqb_spec at_ 0) as [-> |Na]; cbn [negb].
      - destruct (Z.eqb_spec (hd 0 source) 47) as [X|X]; [exfalso; apply (proj1 Hd eq_refl); apply Hh; exact X|]. exists (repeat 0 N). cbn [app length]. rewrite repeat_length. repeat split; lia.
      - destruct (Z.eqb_spec (hd 0 source) 47) as [X|X].
        + rewrite strcat_ok; [|intros []|cbn [length]; rewrite repeat_length; lia]. eexists. split; [reflexivity|]. cbn [app length]. rewrite skipn_length, repeat_length. split; lia.
        + exfalso. apply Na. apply (proj2 Hd). intros Y. apply X. apply Hh. exact Y. }
    destruct B as (j & -> & Ll & Lj). cbn [bind]. rewrite app_length in Lj. cbn [length] in Lj.
    rewrite strcat_ok by (assumption || (cbn [length]; lia)). cbn [bind]. rewrite cstr_ok by (apply string_ok_app; assumption). cbn [bind].
    assert (R : forall fs, mkdir_loop F mkdir (length source) rest' pos' ((lead ++ token) ++ 0 :: skipn (length token) j) fs = Some (make mkdir fs (within (lead ++ token ++ [47]) (components 47 rest')))).
    { intros fs'. rewrite mkdir_loop_ok; [rewrite <- !app_assoc; reflexivity|lia|lia|apply string_ok_app; assumption|intros X; apply Hr; apply I; auto| |].
      - rewrite !app_length. lia.
      - destruct Lp as [Lp|Lp]; [left; exact Lp|right]. rewrite !app_length. cbn [length]. rewrite !skipn_length. lia. }
    destruct (mkdir fs (lead ++ token)) as [[e|] fs'] eqn:M.
    - rewrite (make_some e fs _ _ (or_intror Logic.I) fs' M). destruct (e =? EEXIST); [apply R|reflexivity].
    - cbn [make]. rewrite M. apply R.
  Qed.

  Lemma make_there (there : F -> list Z -> Prop) : (forall fs d e fs', mkdir fs d = (e, fs') -> (e = None \/ e = Some 17) -> there fs' d) -> (forall fs d e fs' x, mkdir fs d = (e, fs') -> there fs x -> there fs' x) ->
    forall l fs fs', make mkdir fs l = (0, fs') -> forall x, there fs x \/ In x l -> there fs' x.
  Proof.
    intros H1 H2. induction l as [|d l IH]; intros fs fs' H x [K|K].
    - cbn in H. injection H as <-. exact K.
    - destruct K.
    - destruct (mkdir fs d) as [[e|] fs1] eqn:M.
      + rewrite (make_some e fs _ _ (or_intror Logic.I) fs1 M) in H. destruct (Z.eqb_spec e EEXIST) as [-> |]; [|discriminate H]. apply (IH fs1 fs' H). left. exact (H2 _ _ _ _ _ M K).
      + cbn [make] in H. rewrite M in H. apply (IH fs1 fs' H). left. exact (H2 _ _ _ _ _ M K).
    - destruct (mkdir fs d) as [[e|] fs1] eqn:M.
      + rewrite (make_some e fs _ _ (or_intror Logic.I) fs1 M) in H. destruct (Z.eqb_spec e EEXIST) as [-> |]; [|discriminate H]. apply (IH fs1 fs' H). destruct K as [<- |K]; [left|right; exact K]. apply (H1 _ _ _ _ M). right. reflexivity.
      + cbn [make] in H. rewrite M in H. apply (IH fs1 fs' H). destruct K as [<- |K]; [left|right; exact K]. apply (H1 _ _ _ _ M). left. reflexivity.
  Qed.
End Mkdir.

(** The last slash. *)
Lemma existsb_in l : existsb (Z.eqb 47) l = true <-> In 47 l.
Proof. rewrite existsb_exists. split; [intros (x & I & E); apply Z.eqb_eq in E; congruence|intros I; exists 47; split; [exact I|reflexivity]]. Qed.
Lemma strrchr_none l : existsb (Z.eqb 47) l = false -> strrchr l 47 = None.
Proof.
  induction l as [|x l IH]; cbn [existsb strrchr]; [reflexivity|]. intros H. apply orb_false_iff in H as (H1 & H2). rewrite IH by exact H2. rewrite Z.eqb_sym, H1. reflexivity.
Qed.
Lemma strrchr_some l : existsb (Z.eqb 47) l = true -> strrchr l 47 = Some (47 :: after l) /\ l = before l ++ 47 :: after l /\ ~ In 47 (after l).
Proof.
  induction l as [|x l IH]; cbn [existsb strrchr before after]; [discriminate|]. intros H. destruct (existsb (Z.eqb 47) l) eqn:E.
  - destruct (IH eq_refl) as (S & P & N). rewrite S. split; [reflexivity|]. split; [cbn [app]; f_equal; exact P|exact N].
  - rewrite orb_false_r in H. apply Z.eqb_eq in H. subst x. rewrite strrchr_none by exact E. cbn. split; [reflexivity|]. split; [reflexivity|]. rewrite <- existsb_in, E. discriminate.
Qed.
Lemma before_none l : existsb (Z.eqb 47) l = false -> before l = [].
Proof. destruct l as [|x l]; [reflexivity|]. cbn [existsb before]. intros H. apply orb_false_iff in H as (_ & ->). reflexivity. Qed.

Lemma mkdir_p_ok F mkdir path all fs : string_ok path -> Z.of_nat (length path) < SIZE ->
  mkdir_p F mkdir path all fs = Some (make mkdir fs (directories (if all then path else before path))).
Proof.
  intros Hp L. unfold mkdir_p. destruct (Z.geb_spec (Z.of_nat (length path)) SIZE); [lia|]. destruct (Z.leb_spec (Z.of_nat (length path)) 0) as [L0|L0].
  - assert (path = []) as -> by (destruct path; [reflexivity|cbn [length] in L0; lia]). destruct all; reflexivity.
  - destruct all; [apply mkdir_first; [exact Hp|lia]|]. destruct (existsb (Z.eqb 47) path) eqn:E.
    + destruct (strrchr_some path E) as (-> & P & _). assert (Lp : Z.of_nat (length path) = Z.of_nat (length (before path)) + Z.of_nat (length (47 :: after path))) by (rewrite P at 1; rewrite app_length; lia).
      destruct (Z.eqb_spec (Z.of_nat (length (47 :: after path))) (Z.of_nat (length path))) as [Eq|Ne].
      * assert (before path = []) as -> by (destruct (before path); [reflexivity|cbn [length] in *; lia]). reflexivity.
      * replace (Z.to_nat (Z.of_nat (length path) - Z.of_nat (length (47 :: after path)))) with (length (before path)) by lia. assert (G : forall b a, path = b ++ a -> firstn (length b) path = b) by (intros b a ->; rewrite firstn_app, Nat.sub_diag, firstn_all; cbn [firstn]; apply app_nil_r). rewrite (G _ _ P).
        apply mkdir_first; [|lia]. intros X. apply Hp. rewrite P. apply in_or_app. left. exact X.
    + rewrite strrchr_none by exact E. rewrite (before_none _ E). reflexivity.
Qed.
