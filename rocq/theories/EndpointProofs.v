From Coq Require Import ZArith List Bool Lia Arith.
From Verif Require Import CInt CUtil IpModel EndpointModel EndpointSpec.
Import ListNotations.
Local Open Scope Z_scope.

(** * The parser without a buffer *)

Definition only_name w := Parts (Some w) None None None None None None.
Definition only_fqdn w := Parts None (Some w) None None None None None.
Definition only_ipv4 w := Parts None None (Some w) None None None None.
Definition only_ipv6 w := Parts None None None (Some w) None None None.
Definition only_port w := Parts None None None None (Some w) None None.
Definition only_path w := Parts None None None None None None (Some w).

(** [w]: from the mark; [c]: what was found so far. *)
Definition go (s : state) (w : list Z) (c : parts) : (state * list Z * parts) + option parts := inl (s, w, c).
Definition a_turn (s : state) (w : list Z) (c : parts) (x : Z) : (state * list Z * parts) + option parts :=
  match s with
  | S_START =>
    if (x =? SPACE) || (x =? TAB) then go S_START w c
    else if x =? COLON then go S_COLON w c
    else if x =? OPENS then go S_IPV6 [] c
    else if is_digit x then go S_DIGIT [x] c
    else if is_letter x then go S_LETTER [x] c
    else if x =? SLASH then go S_PATH [x] c
    else if x =? PERIOD then go S_PATH [x] c
    else if x =? 0 then inr (Some (only_path []))
    else go S_START w c
  | S_DIGIT =>
    if x =? PERIOD then go S_PERIOD (w ++ [x]) c
    else if x =? HYPHEN then go S_LETTER (w ++ [x]) c
    else if is_digit x then go S_DIGIT (w ++ [x]) c
    else if is_letter x then go S_LETTER (w ++ [x]) c
    else if x =? SLASH then go S_PATH (w ++ [x]) c
    else if x =? 0 then inr (Some (only_port w))
    else inr None
  | S_PERIOD =>
    if x =? PERIOD then go S_PERIOD (w ++ [x]) c
    else if x =? HYPHEN then go S_FQDN (w ++ [x]) c
    else if x =? COLON then go S_COLON [] (only_ipv4 w)
    else if is_digit x then go S_PERIOD (w ++ [x]) c
    else if is_letter x then go S_LETTER (w ++ [x]) c
    else if x =? 0 then inr (Some (only_ipv4 w))
    else inr None
  | S_LETTER =>
    if x =? PERIOD then go S_FQDN (w ++ [x]) c
    else if x =? HYPHEN then go S_FQDN (w ++ [x]) c
    else if x =? COLON then go S_COLON [] (only_fqdn w)
    else if is_digit x then go S_LETTER (w ++ [x]) c
    else if is_letter x then go S_LETTER (w ++ [x]) c
    else if x =? SLASH then go S_PATH (w ++ [x]) c
    else if x =? 0 then inr (Some (only_name w))
    else inr None
  | S_FQDN =>
    if x =? HYPHEN then go S_FQDN (w ++ [x]) c
    else if x =? PERIOD then go S_FQDN (w ++ [x]) c
    else if is_digit x then go S_FQDN (w ++ [x]) c
    else if is_letter x then go S_FQDN (w ++ [x]) c
    else if x =? COLON then go S_COLON [] (only_fqdn w)
    else if x =? SLASH then go S_PATH (w ++ [x]) c
    else if x =? 0 then inr (Some (only_fqdn w))
    else inr None
  | S_IPV6 =>
    if x =? CLOSES then go S_NEXT [] (only_ipv6 w)
    else if x =? COLON then go S_IPV6 (w ++ [x]) c
    else if x =? PERIOD then go S_IPV6 (w ++ [x]) c
    else if is_digit x then go S_IPV6 (w ++ [x]) c
    else if is_hex x then go S_IPV6 (w ++ [x]) c
    else inr None
  | S_NEXT =>
    if x =? COLON then go S_COLON w c
    else if x =? 0 then inr (Some c)
    else inr None
  | S_COLON =>
    if is_digit x then go S_PORT [x] c
    else if is_letter x then go S_SERVICE [x] c
    else if x =? 0 then inr (Some c)
    else inr None
  | S_PORT =>
    if is_digit x then go S_PORT (w ++ [x]) c
    else if x =? 0 then inr (Some (with_port c w))
    else inr None
  | S_SERVICE =>
    if is_digit x then go S_SERVICE (w ++ [x]) c
    else if is_letter x then go S_SERVICE (w ++ [x]) c
    else if x =? 0 then inr (Some (with_service c w))
    else inr None
  | S_PATH => if x =? 0 then inr (Some (only_path w)) else go S_PATH (w ++ [x]) c
  | S_STOP => inr None
  end.
Fixpoint scan (s : state) (w : list Z) (c : parts) (l : list Z) : option parts :=
  match l with
  | [] => match a_turn s w c 0 with inr o => o | inl _ => None end
  | x :: l => match a_turn s w c x with inr o => o | inl (s, w, c) => scan s w c l end
  end.

(** * The parser does that *)

Lemma string_at_app : forall w z, ~ In 0 w -> string_at (w ++ 0 :: z) = Some w.
Proof. induction w as [|x w IH]; intros z N; cbn; [reflexivity|]. destruct (Z.eqb_spec x 0) as [E|]; [destruct N; left; exact E|]. rewrite IH; [reflexivity|]. intros I. apply N. right. exact I. Qed.
Lemma skipn_exact {A} (a b : list A) : skipn (length a) (a ++ b) = b. Proof. induction a; [reflexivity|exact IHa]. Qed.
Lemma firstn_exact {A} (a b : list A) : firstn (length a) (a ++ b) = a. Proof. induction a; cbn; [reflexivity|f_equal; exact IHa]. Qed.
Lemma nth_error_exact {A} (a : list A) x b : nth_error (a ++ x :: b) (length a) = Some x. Proof. induction a; [reflexivity|exact IHa]. Qed.
Lemma fetch_at a w z : ~ In 0 w -> fetch (a ++ w ++ 0 :: z) (Some (length a)) = Some (Some w).
Proof. intros N. unfold fetch. rewrite skipn_exact, string_at_app by exact N. reflexivity. Qed.

Definition early (s : state) : bool := match s with S_START | S_DIGIT | S_PERIOD | S_LETTER | S_FQDN | S_IPV6 | S_PATH => true | _ => false end.
Definition marked (s : state) : bool := match s with S_DIGIT | S_PERIOD | S_LETTER | S_FQDN | S_IPV6 | S_PATH | S_PORT | S_SERVICE => true | _ => false end.
Definition is_some {A} (o : option A) : bool := match o with Some _ => true | None => false end.
Definition unset (p : parser) : Prop := p_name p = None /\ p_fqdn p = None /\ p_ipv4 p = None /\ p_ipv6 p = None /\ p_port p = None /\ p_service p = None /\ p_path p = None.
Definition found (p : parser) (c : parts) : Prop := fetch_all p = Some c /\ f_ipv4 p = is_some (ipv4 c) /\ f_ipv6 p = is_some (ipv6 c).
(** [pre]: what was consumed. *)
Definition agree (p : parser) (s : state) (w : list Z) (c : parts) (l : list Z) : Prop :=
  st p = s /\ rc p = -1 /\ found p c /\ (early s = true -> unset p /\ c = nothing) /\ (early s = false -> p_port p = None /\ p_service p = None /\ port c = None /\ service c = None) /\
  exists pre z, buf p = pre ++ l ++ 0 :: z /\ here p = length pre /\ (marked s = true -> exists a, pre = a ++ w /\ mark p = Some (length a) /\ ~ In 0 w).
Definition agree_end (p : parser) (o : option parts) : Prop :=
  match o with None => rc p = -1 | Some c => rc p = 0 /\ found p c end.

Lemma found_blank p : unset p -> f_ipv4 p = false -> f_ipv6 p = false -> found p nothing.
Proof. intros (E1 & E2 & E3 & E4 & E5 & E6 & E7) F1 F2. unfold found, fetch_all. rewrite E1, E2, E3, E4, E5, E6, E7. cbn. auto. Qed.

Lemma no_zero_snoc w x : ~ In 0 w -> x <> 0 -> ~ In 0 (w ++ [x]).
Proof. intros N X I. apply in_app_iff in I as [I|[I|[]]]; congruence. Qed.

(** One turn. *)
Lemma turn_agree p s w c x l : agree p s w c (x :: l) -> s <> S_STOP -> x <> 0 ->
  match a_turn s w c x with
  | inl (s', w', c') => agree (turn p x) s' w' c' l /\ s' <> S_STOP
  | inr o => st (turn p x) = S_STOP /\ agree_end (turn p x) o
  end.
Proof.
  intros (E1 & E2 & E3 & E4 & E5 & pre & z & E6 & E7 & E8) NS NX. destruct p as [ps ph pm pn pf p4 p6 pp pv pt i4 i6 b rc_]. unfold found, unset in *. cbn [st rc p_name p_fqdn p_ipv4 p_ipv6 p_port p_service p_path f_ipv4 f_ipv6 buf here mark] in *. subst ps ph rc_. destruct E3 as (E3 & F4 & F6).
  assert (PX : forall p' s' w' c' pre', st p' = s' -> rc p' = -1 -> found p' c' -> (early s' = true -> unset p' /\ c' = nothing) -> (early s' = false -> p_port p' = None /\ p_service p' = None /\ port c' = None /\ service c' = None) -> buf p' = pre' ++ l ++ 0 :: z -> here p' = length pre' -> (marked s' = true -> exists a, pre' = a ++ w' /\ mark p' = Some (length a) /\ ~ In 0 w') -> agree p' s' w' c' l).
  { intros p' s' w' c' pre' H1 H2 H3 H4 H5 H6 H7 H8. split; [exact H1|]. split; [exact H2|]. split; [exact H3|]. split; [exact H4|]. split; [exact H5|]. exists pre', z. auto. }
  assert (LX : S (length pre) = length (pre ++ [x])) by (rewrite app_length; cbn; lia).
  assert (LN : S (length pre) = length (pre ++ [0])) by (rewrite app_length; cbn; lia).
  assert (BX : b = (pre ++ [x]) ++ l ++ 0 :: z) by (rewrite E6, <- app_assoc; reflexivity).
  assert (M0 : exists a, pre ++ [x] = a ++ [x] /\ Some (length pre) = Some (length a) /\ ~ In 0 [x]) by (exists pre; split; [reflexivity|]; split; [reflexivity|]; intros [I|[]]; congruence).
  assert (MI : exists a : list Z, pre ++ [x] = a ++ [] /\ Some (S (length pre)) = Some (length a) /\ ~ In 0 []) by (exists (pre ++ [x]); rewrite app_nil_r; split; [reflexivity|]; split; [congruence|auto]).
  assert (M1 : marked s = true -> exists a, pre ++ [x] = a ++ (w ++ [x]) /\ pm = Some (length a) /\ ~ In 0 (w ++ [x])).
  { intros M. destruct (E8 M) as (a & P1 & P2 & P3). exists a. split; [rewrite P1, <- app_assoc; reflexivity|]. split; [exact P2|]. apply no_zero_snoc; assumption. }
  assert (NUL : firstn (length pre) b ++ 0 :: skipn (S (length pre)) b = (pre ++ [0]) ++ l ++ 0 :: z).
  { rewrite E6. cbn [app]. rewrite firstn_exact, <- app_assoc. f_equal. cbn [app]. f_equal. change (skipn (S (length pre)) (pre ++ x :: l ++ 0 :: z)) with (skipn (S (length pre)) (pre ++ [x] ++ l ++ 0 :: z)). rewrite LX, app_assoc. apply skipn_exact. }
  assert (FN : marked s = true -> fetch ((pre ++ [0]) ++ l ++ 0 :: z) pm = Some (Some w)).
  { intros M. destruct (E8 M) as (a & P1 & P2 & P3). rewrite P1, P2, <- !app_assoc. cbn [app]. apply fetch_at, P3. }
  clear E6.
  destruct s; try contradiction; cbn [early marked] in *;
    try (destruct (E4 eq_refl) as ((U1 & U2 & U3 & U4 & U5 & U6 & U7) & ->); subst pn pf p4 p6 pp pv pt; cbn in F4, F6; subst i4 i6);
    try (destruct (E5 eq_refl) as (U5 & U6 & U8 & U9); subst pp pv);
    try specialize (M1 eq_refl); try specialize (FN eq_refl);
    unfold a_turn, turn; cbn [st];
    repeat match goal with |- context[if ?x then _ else _] => destruct x eqn:? end;
    unfold go;
    try (exfalso; match goal with H : (x =? 0) = true |- _ => apply Z.eqb_eq in H; contradiction end);
    try (split; [reflexivity|reflexivity]);
    unfold with_st, with_next, with_mark, with_nul, with_ok, set_name, set_fqdn, set_ipv4, set_ipv6, set_port, set_service, set_path; cbn [st here mark p_name p_fqdn p_ipv4 p_ipv6 p_port p_service p_path f_ipv4 f_ipv6 buf rc].
  all: (split; [|discriminate]); rewrite ?NUL; clear E4 E5 E8.
  all: match goal with
    | |- context[_ ++ [0]] => idtac
    | _ => apply (PX _ _ _ _ (pre ++ [x])); cbn [st here mark p_name p_fqdn p_ipv4 p_ipv6 p_port p_service p_path f_ipv4 f_ipv6 buf rc early marked];
      [reflexivity|reflexivity|split; [exact E3|split; [exact F4 || reflexivity|exact F6 || reflexivity]]|..]; unfold unset; cbn [p_name p_fqdn p_ipv4 p_ipv6 p_port p_service p_path]; auto 10; discriminate
    end.
  all: apply (PX _ _ _ _ (pre ++ [0])); cbn [st here mark p_name p_fqdn p_ipv4 p_ipv6 p_port p_service p_path f_ipv4 f_ipv6 buf rc early marked];
    [reflexivity|reflexivity|split; [unfold fetch_all; cbn [p_name p_fqdn p_ipv4 p_ipv6 p_port p_service p_path buf]; rewrite FN; reflexivity|split; reflexivity]|..]; auto; discriminate.
Qed.
(** The last turn. *)
Lemma last_agree p s w c : agree p s w c [] -> s <> S_STOP -> exists o, a_turn s w c 0 = inr o /\ st (turn p 0) = S_STOP /\ agree_end (turn p 0) o.
Proof.
  intros (E1 & E2 & E3 & E4 & E5 & pre & z & E6 & E7 & E8) NS. destruct p as [ps ph pm pn pf p4 p6 pp pv pt i4 i6 b rc_]. unfold found, unset in *. cbn [st rc p_name p_fqdn p_ipv4 p_ipv6 p_port p_service p_path f_ipv4 f_ipv6 buf here mark] in *. subst ps ph rc_. destruct E3 as (E3 & F4 & F6).
  assert (FN : marked s = true -> fetch b pm = Some (Some w)).
  { intros M. destruct (E8 M) as (a & P1 & P2 & P3). rewrite E6, P1, P2. cbn [app]. rewrite <- app_assoc. apply fetch_at, P3. }
  assert (F0 : fetch b (Some (length pre)) = Some (Some [])) by (rewrite E6; apply (fetch_at pre [] z); auto).
  destruct s; try contradiction; cbn [early marked] in *;
    try (destruct (E4 eq_refl) as ((U1 & U2 & U3 & U4 & U5 & U6 & U7) & ->); subst pn pf p4 p6 pp pv pt; cbn in F4, F6; subst i4 i6);
    try (destruct (E5 eq_refl) as (U5 & U6 & U8 & U9); subst pp pv);
    try specialize (FN eq_refl); eexists; (split; [reflexivity|]); (split; [reflexivity|]);
    unfold turn; cbn [st SPACE TAB COLON OPENS SLASH PERIOD HYPHEN CLOSES is_digit is_letter is_hex Z.eqb Z.leb Z.compare Pos.compare Pos.compare_cont andb orb];
    unfold with_st, with_next, with_mark, with_nul, with_ok, set_name, set_fqdn, set_ipv4, set_ipv6, set_port, set_service, set_path; cbn [st here mark p_name p_fqdn p_ipv4 p_ipv6 p_port p_service p_path f_ipv4 f_ipv6 buf rc];
    unfold agree_end; cbn [rc]; try reflexivity; (split; [reflexivity|]); unfold found; cbn [f_ipv4 f_ipv6]; try (split; [exact E3|split; assumption]).
  all: try (split; [unfold fetch_all; cbn [p_name p_fqdn p_ipv4 p_ipv6 p_port p_service p_path buf]; rewrite ?FN, ?F0; reflexivity|split; assumption || reflexivity]).
  all: split; [|split; assumption].
  all: unfold fetch_all in E3 |- *; cbn [p_name p_fqdn p_ipv4 p_ipv6 p_port p_service p_path buf] in *.
  all: destruct (fetch b pn); [|discriminate E3]; destruct (fetch b pf); [|discriminate E3]; destruct (fetch b p4); [|discriminate E3]; destruct (fetch b p6); [|discriminate E3]; destruct (fetch b pt); [|discriminate E3]; cbn [bind fetch] in *; rewrite FN; cbn [bind]; injection E3 as <-; reflexivity.
Qed.
Lemma loop_agree : forall l p s w c fuel, agree p s w c l -> s <> S_STOP -> ~ In 0 l -> (length l < fuel)%nat -> exists p', loop fuel p = Stopped p' /\ agree_end p' (scan s w c l).
Proof.
  induction l as [|x l IH]; intros p s w c fuel A NS N F; (destruct fuel as [|fuel]; [lia|]); cbn [loop scan]; pose proof A as (_ & _ & _ & _ & _ & pre & z & E6 & E7 & _); rewrite E6, E7; cbn [app]; rewrite nth_error_exact.
  - destruct (last_agree p s w c A NS) as (o & E & S & Q). rewrite S, E. eauto.
  - assert (NX : x <> 0) by (intros ->; apply N; left; reflexivity). pose proof (turn_agree p s w c x l A NS NX) as T. destruct (a_turn s w c x) as [((s', w'), c')|o].
    + destruct T as (T & NS'). destruct (IH (turn p x) s' w' c' fuel T NS') as (p' & L & Q); [intros I; apply N; right; exact I|cbn in F; lia|]. exists p'. split; [|exact Q]. destruct T as (T & _). destruct (st (turn p x)); try exact L. congruence.
    + destruct T as (T & Q). rewrite T. eauto.
Qed.
Lemma begin_agree s : ~ In 0 s -> Z.of_nat (length s) < SIZE -> agree (begin s) S_START [] nothing s.
Proof.
  intros N L. unfold agree. split; [reflexivity|]. split; [reflexivity|]. split; [apply found_blank; [repeat split; reflexivity|reflexivity..]|]. split; [intros _; split; [repeat split; reflexivity|reflexivity]|]. split; [discriminate|].
  exists [], (repeat 0 (Z.to_nat SIZE - length s - 1)). split; [|split; [reflexivity|discriminate]]. cbn [begin buf app]. unfold strncpy. rewrite firstn_all2 by lia. f_equal. assert (K : (0 < Z.to_nat SIZE - length s)%nat) by lia. destruct (Z.to_nat SIZE - length s)%nat as [|k]; [lia|]. cbn [repeat]. rewrite Nat.sub_succ, Nat.sub_0_r. reflexivity.
Qed.
