(** Canonical paths, types, and the search for files. *)

From Coq Require Import ZArith List Bool Lia.
From Verif Require Import CUtil CInt StringModel WalkModel WalkSpec WalkProofs FsModel FsSpec FsProofs.
Import ListNotations.
Local Open Scope Z_scope.

Lemma eq_str_spec a b : eq_str a b = true <-> a = b.
Proof. unfold eq_str. destruct (list_eq_dec Z.eq_dec a b); split; congruence. Qed.
Lemma eq_str_false a b : a <> b -> eq_str a b = false.
Proof. intros N. destruct (eq_str a b) eqn:E; [apply eq_str_spec in E; contradiction|reflexivity]. Qed.
Lemma skipn_more {A} m : forall n (l : list A), skipn m (skipn n l) = skipn (n + m) l.
Proof. intros n. revert m. induction n as [|n IH]; intros m l; [reflexivity|]. destruct l as [|x l]; [rewrite skipn_nil; destruct m; reflexivity|]. cbn [skipn Nat.add]. apply IH. Qed.
Lemma skipn_over {A} (a r : list A) n : (length a <= n)%nat -> skipn n (a ++ r) = skipn (n - length a) r.
Proof. intros H. rewrite skipn_app, skipn_all2 by exact H. reflexivity. Qed.

Lemma dissect_ok path : path <> [] -> ~ rooted path -> dissect path = (must path, false, need_not path).
Proof.
  intros Ne Nr. unfold dissect, must, need_not.
  rewrite (eq_str_false path [47]) by (intros ->; apply Nr; exists []; split; [reflexivity|intros []]).
  rewrite (eq_str_false path [47; 46]) by (intros ->; apply Nr; exists [46]; split; [reflexivity|intros [X|[]]; discriminate]).
  rewrite (eq_str_false path [47; 46; 46]) by (intros ->; apply Nr; exists [46; 46]; split; [reflexivity|intros [X|[X|[]]]; discriminate]). cbn [orb].
  destruct (existsb (Z.eqb 47) path) eqn:E; [|rewrite strrchr_none by exact E; reflexivity]. destruct (strrchr_some path E) as (-> & P & N). cbn [tl].
  destruct (Z.eqb_spec (Z.of_nat (length (after path))) 0) as [L0|L0].
  { destruct (after path) eqn:A; [reflexivity|cbn [length] in L0; lia]. }
  destruct (eq_str (after path) [46]) eqn:E1; [apply eq_str_spec in E1; rewrite E1; reflexivity|].
  destruct (eq_str (after path) [46; 46]) eqn:E2; [apply eq_str_spec in E2; rewrite E2; reflexivity|].
  assert (no_entry (after path) = false) as ->.
  { unfold no_entry. destruct (in_dec _ _ _) as [[X|[X|[X|[]]]]|]; [rewrite <- X in L0; cbn in L0; lia|rewrite <- X in E1; discriminate|rewrite <- X in E2; discriminate|reflexivity]. }
  assert (Lp : length path = (length (before path) + 1 + length (after path))%nat) by (rewrite P at 1; rewrite app_length; cbn [length]; lia).
  destruct (Z.leb_spec (Z.of_nat (length path) - Z.of_nat (length (after path))) 1) as [L1|L1].
  - exfalso. apply Nr. exists (after path). split; [|exact N]. rewrite P at 1. assert (before path = []) as ->; [|reflexivity]. destruct (before path); [reflexivity|]. cbn [length] in Lp. lia.
  - f_equal. f_equal. replace (length path - length (after path))%nat with (length (before path ++ [47])) by (rewrite app_length; cbn [length]; lia).
    assert (G : forall b a, path = b ++ a -> firstn (length b) path = b) by (intros b a ->; rewrite firstn_app, Nat.sub_diag, firstn_all; cbn [firstn]; apply app_nil_r).
    apply (G _ (after path)). rewrite <- app_assoc. exact P.
Qed.

Lemma need_not_ok path : string_ok path -> string_ok (need_not path).
Proof.
  intros H. unfold need_not. destruct (existsb (Z.eqb 47) path) eqn:E; [|exact H]. destruct (no_entry (after path)); [intros []|]. destruct (strrchr_some path E) as (_ & P & _). intros X. apply H. rewrite P. apply in_or_app. right. right. exact X.
Qed.

Lemma canonicalize_ok realpath path buffer size : real_ok realpath -> string_ok path -> path <> [] -> Z.of_nat (length path) < SIZE -> ~ rooted path -> size <= Z.of_nat (length buffer) ->
  match realpath (must path) with
  | None => canonicalize realpath path buffer size = Some (-1, buffer)
  | Some p =>
      if 1 + Z.of_nat (length p) + Z.of_nat (length (need_not path)) <? size
      then exists b, canonicalize realpath path buffer size = Some (0, b) /\ cstr b = Some (join p (need_not path)) /\ length b = length buffer /\ skipn (Z.to_nat size) b = skipn (Z.to_nat size) buffer
      else canonicalize realpath path buffer size = Some (-1, buffer)
  end.
Proof.
  intros Ro Hp Ne L Nr Lb. unfold canonicalize. destruct (Z.geb_spec (Z.of_nat (length path)) SIZE); [lia|]. destruct (Z.eqb_spec (Z.of_nat (length path)) 0); [destruct path; [contradiction|cbn [length] in *; lia]|].
  rewrite (dissect_ok path Ne Nr). destruct (realpath (must path)) as [p|] eqn:R; [|reflexivity]. destruct (Ro _ _ R) as (H47 & Sp & Lp). pose proof (need_not_ok path Hp) as Sf. set (f := need_not path) in *.
  destruct (Z.ltb_spec (1 + Z.of_nat (length p) + Z.of_nat (length f)) size) as [Lt|Lt]; destruct (Z.geb_spec (1 + Z.of_nat (length f) + Z.of_nat (length p)) size); try lia; [|reflexivity].
  assert (Np : p <> []) by (intros ->; discriminate H47).
  rewrite overwrite_ok by (rewrite app_length; cbn [length]; lia). cbn [bind]. pose proof (peek_last p [] Np) as Pk. rewrite app_nil_r in Pk. rewrite Pk. cbn [bind].
  rewrite <- app_assoc, app_length. cbn [app length]. unfold join. destruct p as [|x p']; [contradiction|]. set (p := x :: p') in *.
  destruct (Z.eqb_spec (last p 0) 47) as [E47|N47]; cbn [negb].
  - cbn [bind]. rewrite strcat_ok by (assumption || (cbn [length]; rewrite skipn_length; lia)). cbn [bind]. eexists. split; [reflexivity|]. split; [apply cstr_ok; apply string_ok_app; assumption|]. split.
    + rewrite !app_length. cbn [length]. rewrite !skipn_length. lia.
    + rewrite skipn_over by (rewrite app_length; lia). rewrite skipn_more. rewrite app_length. replace (Z.to_nat size - (length p + length f))%nat with (S (Z.to_nat size - (length p + length f + 1))) by lia. cbn [skipn]. rewrite skipn_more. f_equal. lia.
  - rewrite strcat_ok by (assumption || (cbn [length]; rewrite skipn_length; lia)). cbn [bind].
    assert (H1 : string_ok (p ++ [47])) by (apply string_ok_app; [assumption|intros [X|[]]; discriminate]).
    rewrite strcat_ok by (assumption || (cbn [length]; rewrite !skipn_length; cbn [length]; lia)). cbn [bind]. eexists. split; [reflexivity|]. split; [rewrite cstr_ok by (apply string_ok_app; assumption); rewrite <- app_assoc; reflexivity|]. split.
    + rewrite !app_length. cbn [length]. rewrite !skipn_length. cbn [length]. lia.
    + rewrite skipn_over by (rewrite !app_length; cbn [length]; lia). rewrite !skipn_more. rewrite !app_length. cbn [length]. replace (Z.to_nat size - (length p + 1 + length f))%nat with (S (Z.to_nat size - (length p + 1 + length f + 1))) by lia. cbn [skipn]. rewrite skipn_more. f_equal. lia.
Qed.
Lemma canonicalize_rooted realpath f buffer size : ~ In 47 f -> 2 + Z.of_nat (length f) <= SIZE -> 2 + Z.of_nat (length f) <= size -> size <= Z.of_nat (length buffer) ->
  canonicalize realpath (47 :: f) buffer size = None.
Proof.
  intros N Ls Lz Lb. unfold canonicalize. destruct (Z.geb_spec (Z.of_nat (length (47 :: f))) SIZE); [cbn [length] in *; lia|]. destruct (Z.eqb_spec (Z.of_nat (length (47 :: f))) 0); [cbn [length] in *; lia|].
  assert (D : exists g, dissect (47 :: f) = ([], true, g) /\ (length g <= length f)%nat).
  { unfold dissect. destruct (eq_str (47 :: f) [47]) eqn:E1; [cbn [orb]; exists []; split; [reflexivity|cbn; lia]|]. destruct (eq_str (47 :: f) [47; 46]) eqn:E2; [cbn [orb]; exists []; split; [reflexivity|cbn; lia]|]. destruct (eq_str (47 :: f) [47; 46; 46]) eqn:E3; [cbn [orb]; exists []; split; [reflexivity|cbn; lia]|]. cbn [orb].
    assert (existsb (Z.eqb 47) f = false) as Ef by (destruct (existsb (Z.eqb 47) f) eqn:X; [apply existsb_in in X; contradiction|reflexivity]).
    cbn [strrchr]. rewrite (strrchr_none f Ef). cbn [Z.eqb Pos.eqb tl]. destruct (Z.eqb_spec (Z.of_nat (length f)) 0) as [X|X]; [destruct f; [discriminate E1|cbn [length] in X; lia]|].
    destruct (eq_str f [46]) eqn:E4; [apply eq_str_spec in E4; subst f; discriminate E2|]. destruct (eq_str f [46; 46]) eqn:E5; [apply eq_str_spec in E5; subst f; discriminate E3|].
    destruct (Z.leb_spec (Z.of_nat (length (47 :: f)) - Z.of_nat (length f)) 1) as [Y|Y]; [|cbn [length] in Y; lia]. exists f. auto. }
  destruct D as (g & -> & Lg). cbn [length]. destruct (Z.geb_spec (1 + Z.of_nat (length g) + Z.of_nat 0) size); [lia|]. destruct buffer as [|y buffer]; [cbn [length] in Lb; lia|]. destruct buffer; reflexivity.
Qed.

Lemma expand_ok realpath path buffer size : real_ok realpath -> 0 <= size <= Z.of_nat (length buffer) ->
  match realpath path with
  | None => expand realpath path buffer size = Some (-1, buffer)
  | Some p =>
      if size =? 0 then expand realpath path buffer size = Some (-1, buffer)
      else exists b, expand realpath path buffer size = Some (0, b) /\ cstr b = Some (firstn (Z.to_nat (size - 1)) p) /\ length b = length buffer /\ skipn (Z.to_nat size) b = skipn (Z.to_nat size) buffer
  end.
Proof.
  intros Ro Lz. unfold expand. destruct (realpath path) as [p|] eqn:R; [|reflexivity]. destruct (Z.eqb_spec size 0) as [|Nz]; [reflexivity|]. destruct (Ro _ _ R) as (_ & Sp & _).
  unfold strncpy. set (n := Z.to_nat size). set (t := firstn n (p ++ repeat 0 n)). assert (Lt : length t = n) by (unfold t; rewrite firstn_length, app_length, repeat_length; lia).
  rewrite overwrite_ok by (rewrite Lt; lia). cbn [bind]. rewrite Lt.
  assert (G : forall l : list Z, length l = n -> exists y, l = firstn (n - 1) l ++ [y]).
  { intros l Ll. destruct (exists_last (l := l)) as (u & y & ->); [intros ->; cbn [length] in Ll; lia|]. exists y. rewrite app_length in Ll. cbn [length] in Ll. replace (n - 1)%nat with (length u) by lia. rewrite firstn_app, Nat.sub_diag, firstn_all. cbn [firstn]. rewrite app_nil_r. reflexivity. }
  destruct (G t Lt) as (y & Ht). clear G.
  rewrite Ht, <- app_assoc. cbn [app]. rewrite put_at by (rewrite firstn_length; lia). cbn [bind]. eexists. split; [reflexivity|]. split; [|split].
  - unfold t. rewrite firstn_firstn. replace (Nat.min (n - 1) n) with (n - 1)%nat by lia. replace (Z.to_nat (size - 1)) with (n - 1)%nat by lia.
    destruct (Nat.leb_spec (length p) (n - 1)) as [X|X].
    + rewrite firstn_app, firstn_all2 by lia. destruct (n - 1 - length p)%nat as [|k] eqn:K.
      * cbn [firstn]. rewrite app_nil_r. apply cstr_ok. exact Sp.
      * replace n with (S (n - 1)) by lia. cbn [repeat firstn]. rewrite <- app_assoc. cbn [app]. apply cstr_ok. exact Sp.
    + rewrite firstn_app. replace (n - 1 - length p)%nat with 0%nat by lia. cbn [firstn]. rewrite app_nil_r. apply cstr_ok. intros I. apply Sp. rewrite <- (firstn_skipn (n - 1) p). apply in_or_app. left. exact I.
  - rewrite app_length. cbn [length]. rewrite skipn_length, firstn_length. lia.
  - rewrite skipn_over by (rewrite firstn_length; lia). rewrite firstn_length. replace (n - Nat.min (n - 1) (length t))%nat with 1%nat by lia. reflexivity.
Qed.

Lemma mode2type_bits m : mode2type m = mode2type (((m / 2 ^ 12) mod 2 ^ 4) * 2 ^ 12).
Proof.
  assert (S_IFMT m = S_IFMT (((m / 2 ^ 12) mod 2 ^ 4) * 2 ^ 12)) as E.
  { unfold S_IFMT. rewrite <- Z.land_ones by lia. rewrite <- Z.shiftr_div_pow2, <- Z.shiftl_mul_pow2 by lia. apply Z.bits_inj'. intros i Hi. rewrite !Z.land_spec, Z.shiftl_spec by lia.
    replace (Z.testbit 61440 i) with (Z.testbit (Z.shiftl (Z.ones 4) 12) i) by reflexivity. rewrite Z.shiftl_spec by lia.
    destruct (Z.ltb_spec i 12) as [L|L].
    - rewrite !(Z.testbit_neg_r _ (i - 12)) by lia. rewrite !andb_false_r. reflexivity.
    - rewrite Z.land_spec, Z.shiftr_spec by lia. replace (i - 12 + 12) with i by lia. destruct (Z.testbit (Z.ones 4) (i - 12)); rewrite ?andb_false_r, ?andb_true_r; reflexivity. }
  unfold mode2type. rewrite E. reflexivity.
Qed.
Lemma mode2type_inj m1 m2 : mode2type m1 = mode2type m2 <-> (m1 / 2 ^ 12) mod 2 ^ 4 = (m2 / 2 ^ 12) mod 2 ^ 4.
Proof.
  rewrite (mode2type_bits m1), (mode2type_bits m2). pose proof (Z.mod_pos_bound (m1 / 2 ^ 12) (2 ^ 4) eq_refl) as B1. pose proof (Z.mod_pos_bound (m2 / 2 ^ 12) (2 ^ 4) eq_refl) as B2.
  revert B1 B2. generalize ((m1 / 2 ^ 12) mod 2 ^ 4) as a. generalize ((m2 / 2 ^ 12) mod 2 ^ 4) as b. intros b a B1 B2. split; [|congruence].
  pose proof (all_below2 16 16 (fun a b => implb (mode2type (a * 2 ^ 12) =? mode2type (b * 2 ^ 12)) (a =? b))) as A. specialize (A eq_refl a b B1 B2). cbv beta in A. intros E. rewrite E, Z.eqb_refl in A. apply Z.eqb_eq. exact A.
Qed.

Lemma scan_loop_ok stat file fuel : forall rest, (length rest < fuel)%nat -> scan_loop stat fuel rest file = Some (first_of stat (until_long (candidates rest file))).
Proof.
  induction fuel as [|fuel IH]; intros rest L; [lia|]. cbn [scan_loop]. unfold candidates. destruct (strtok 58 rest 0) as [[[[p at_] rest'] pos']|] eqn:E; [|rewrite (strtok_none _ _ _ E); reflexivity].
  destruct (strtok_some _ _ _ _ _ _ _ E) as (C & _ & _ & _ & _ & _ & Lr & _). rewrite C. cbn [map until_long].
  destruct (Z.geb_spec (Z.of_nat (length (p ++ [47] ++ file))) SIZE); destruct (Z.ltb_spec (Z.of_nat (length (p ++ [47] ++ file))) SIZE); try lia; [reflexivity|].
  unfold first_of. cbn [List.find]. destruct (stat (p ++ [47] ++ file)); [reflexivity|]. apply IH. lia.
Qed.
Lemma until_long_all l : Forall (fun x => Z.of_nat (length x) < SIZE) l -> until_long l = l.
Proof. induction 1 as [|x l H _ IH]; [reflexivity|]. cbn [until_long]. destruct (Z.ltb_spec (Z.of_nat (length x)) SIZE); [|lia]. rewrite IH. reflexivity. Qed.

(** What [split] gives: joined again by the delimiter it is the text, and no part contains
    it. *)
Lemma split_glue d l : glue d (split d l) = l /\ Forall (fun x => ~ In d x) (split d l).
Proof.
  induction l as [|x l [IH1 IH2]]; [split; [reflexivity|constructor; [intros []|constructor]]|]. cbn [split].
  assert (E : exists a r, split d l = a :: r) by (destruct (split d l) eqn:E; [destruct l as [|y l']; cbn [split] in E; [discriminate|]; destruct (y =? d); [discriminate|]; destruct (split d l'); discriminate|eauto]).
  destruct E as (a & r & E). rewrite E in *. destruct (Z.eqb_spec x d) as [-> |N].
  - split; [|constructor; [intros []|exact IH2]]. cbn [glue app] in *. rewrite IH1. reflexivity.
  - pose proof (Forall_inv IH2) as A. pose proof (Forall_inv_tail IH2) as R. split; [cbn [glue] in *; destruct r; cbn [app]; rewrite <- IH1; reflexivity|]. constructor; [intros [X|X]; contradiction|exact R].
Qed.

Lemma before_app p x : ~ In 47 x -> before (p ++ 47 :: x) = p.
Proof.
  intros N. assert (E : existsb (Z.eqb 47) x = false) by (destruct (existsb (Z.eqb 47) x) eqn:X; [apply existsb_in in X; contradiction|reflexivity]).
  induction p as [|y p IH]; [cbn [app before]; rewrite E; reflexivity|]. cbn [app before]. assert (existsb (Z.eqb 47) (p ++ 47 :: x) = true) as -> by (apply existsb_in, in_or_app; right; left; reflexivity). rewrite IH. reflexivity.
Qed.
Lemma lookup_cons x k fs d : lookup ((x, k) :: fs) d = if list_eq_dec Z.eq_dec x d then Some k else lookup fs d.
Proof. reflexivity. Qed.
Lemma within_longer l : forall base d, In d (within base l) -> Forall (fun x : list Z => x <> []) l -> (length base < length d)%nat.
Proof.
  induction l as [|x l IH]; intros base d H F; [destruct H|]. pose proof (Forall_inv F) as Nx. pose proof (Forall_inv_tail F) as Fl. destruct x as [|y x]; [contradiction|]. cbn [within] in H. destruct H as [<- |H].
  - rewrite app_length. cbn [length]. lia.
  - specialize (IH _ _ H Fl). rewrite !app_length in IH. cbn [length] in IH. lia.
Qed.
Lemma make_creates l : forall base fs, Forall (fun x => x <> [] /\ ~ In 47 x) l ->
  (base = [] \/ exists p, base = p ++ [47] /\ (p = [] \/ lookup fs p = Some true)) ->
  (forall d, In d (within base l) -> lookup fs d <> Some false) ->
  exists fs', make mkdir2 fs (within base l) = (0, fs') /\ forall d, lookup fs' d = if in_dec (list_eq_dec Z.eq_dec) d (within base l) then Some true else lookup fs d.
Proof.
  induction l as [|x l IH]; intros base fs F B N; cbn [within make]; [exists fs; split; [reflexivity|intros d; reflexivity]|].
  pose proof (Forall_inv F) as (Nx & Sx). pose proof (Forall_inv_tail F) as Fl. cbn [within] in N.
  assert (M : exists e fs1, mkdir2 fs (base ++ x) = (e, fs1) /\ (e = None \/ e = Some 17) /\ lookup fs1 (base ++ x) = Some true /\ forall d, d <> base ++ x -> lookup fs1 d = lookup fs d).
  { unfold mkdir2. destruct (lookup fs (base ++ x)) as [[|]|] eqn:L.
    - exists (Some 17), fs. auto.
    - exfalso. apply (N (base ++ x)); [left; reflexivity|exact L].
    - assert (G : exists e fs1, (None (A := Z), (base ++ x, true) :: fs) = (e, fs1) /\ (e = None \/ e = Some 17) /\ lookup fs1 (base ++ x) = Some true /\ forall d, d <> base ++ x -> lookup fs1 d = lookup fs d).
      { exists None, ((base ++ x, true) :: fs). split; [reflexivity|]. split; [left; reflexivity|]. rewrite lookup_cons. destruct (list_eq_dec Z.eq_dec (base ++ x) (base ++ x)); [|contradiction]. split; [reflexivity|]. intros d Nd. rewrite lookup_cons. destruct (list_eq_dec Z.eq_dec (base ++ x) d); [congruence|reflexivity]. }
      destruct B as [-> |(p & -> & P)].
      + cbn [app]. rewrite before_none by (destruct (existsb (Z.eqb 47) x) eqn:X; [apply existsb_in in X; contradiction|reflexivity]). exact G.
      + rewrite <- app_assoc in *. cbn [app] in *. rewrite before_app by exact Sx. destruct p as [|y p]; [exact G|]. destruct P as [P|P]; [discriminate|]. rewrite P. exact G. }
  destruct M as (e & fs1 & M & E & L1 & K). rewrite M.
  destruct (IH (base ++ x ++ [47]) fs1 Fl) as (fs' & R1 & R2).
  - right. exists (base ++ x). split; [rewrite app_assoc; reflexivity|right; exact L1].
  - intros d Hd. destruct (list_eq_dec Z.eq_dec d (base ++ x)) as [-> |Nd]; [rewrite L1; discriminate|]. rewrite (K _ Nd). apply N. right. exact Hd.
  - exists fs'. split; [destruct E as [-> | ->]; exact R1|]. intros d. rewrite R2.
    destruct (in_dec _ d (within (base ++ x ++ [47]) l)) as [I|I]; destruct (in_dec _ d ((base ++ x) :: within (base ++ x ++ [47]) l)) as [J|J]; try reflexivity.
    + exfalso. apply J. right. exact I.
    + destruct J as [<- |J]; [exact L1|contradiction].
    + apply K. intros ->. apply J. left. reflexivity.
Qed.
Lemma components_ok d l : Forall (fun x => x <> [] /\ ~ In d x) (components d l).
Proof. apply Forall_forall. intros x H. apply filter_In in H. destruct H as [H H2]. split; [intros ->; discriminate|]. destruct (split_glue d l) as (_ & F). exact (proj1 (Forall_forall _ _) F x H). Qed.
Lemma mkdir_p_creates path (all : bool) fs : string_ok path -> Z.of_nat (length path) < SIZE ->
  (forall d, In d (directories (if all then path else before path)) -> lookup fs d <> Some false) ->
  exists fs', mkdir_p disk mkdir2 path all fs = Some (0, fs') /\ forall d, lookup fs' d = if in_dec (list_eq_dec Z.eq_dec) d (directories (if all then path else before path)) then Some true else lookup fs d.
Proof.
  intros S L N. rewrite mkdir_p_ok by assumption. unfold directories in *. set (q := if all then path else before path) in *.
  destruct (make_creates (components 47 q) (if hd 0 q =? 47 then [47] else []) fs (components_ok 47 q)) as (fs' & R1 & R2).
  - destruct (hd 0 q =? 47); [right; exists []; auto|left; reflexivity].
  - exact N.
  - exists fs'. rewrite R1. split; [reflexivity|exact R2].
Qed.
Lemma mkdir_long F mkdir path all fs : SIZE <= Z.of_nat (length path) -> mkdir_p F mkdir path all fs = Some (-1, fs).
Proof. intros H. unfold mkdir_p. destruct (Z.geb_spec (Z.of_nat (length path)) SIZE); [reflexivity|lia]. Qed.
Lemma mkdir_p_makes F (mkdir : F -> list Z -> option Z * F) (there : F -> list Z -> Prop) :
  (forall fs d e fs', mkdir fs d = (e, fs') -> (e = None \/ e = Some 17) -> there fs' d) -> (forall fs d e fs' x, mkdir fs d = (e, fs') -> there fs x -> there fs' x) ->
  forall path (all : bool) fs fs', string_ok path -> mkdir_p F mkdir path all fs = Some (0, fs') -> forall x, there fs x \/ In x (directories (if all then path else before path)) -> there fs' x.
Proof.
  intros H1 H2 path all fs fs' S M x X. destruct (Z.ltb_spec (Z.of_nat (length path)) SIZE) as [L|L]; [|rewrite mkdir_long in M by exact L; discriminate M].
  rewrite mkdir_p_ok in M by assumption. apply (make_there F mkdir there H1 H2 _ _ _ (f_equal (fun o => match o with Some x => x | None => (0, fs) end) M) x X).
Qed.
