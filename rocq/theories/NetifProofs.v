(** Proofs about the lists of interfaces and addresses. *)

From Coq Require Import ZArith List Bool Lia.
From Verif Require Import CInt CUtil IpModel IpSpec IpProofs NetifModel NetifSpec.
Import ListNotations.
Local Open Scope Z_scope.

Lemma strnlen_spec n : forall t rest, ~ In 0 t -> strnlen n (t ++ 0 :: rest) = Some (Z.of_nat (length (firstn n t))).
Proof.
  induction n as [|n IH]; intros t rest N; [reflexivity|]. destruct t as [|c t]; [reflexivity|]. cbn [app strnlen firstn length].
  destruct (Z.eqb_spec c 0) as [->|Hc]; [exfalso; apply N; left; reflexivity|]. rewrite IH by (intros I; apply N; right; exact I). cbn [bind]. f_equal. lia.
Qed.

Lemma strncmp_spec n : forall s t r1 r2, ~ In 0 s -> ~ In 0 t ->
  exists c, strncmp n (s ++ 0 :: r1) (t ++ 0 :: r2) = Some c /\ (c = 0 <-> firstn n s = firstn n t).
Proof.
  induction n as [|n IH]; intros s t r1 r2 N1 N2; [exists 0; split; [reflexivity|split; reflexivity]|].
  destruct s as [|x s]; destruct t as [|y t]; cbn [app strncmp firstn].
  - exists 0. split; [reflexivity|split; reflexivity].
  - assert (Hy : y <> 0) by (intros ->; apply N2; left; reflexivity). destruct (Z.eqb_spec 0 y); [congruence|]. cbn [negb].
    eexists. split; [reflexivity|]. split; [lia|discriminate].
  - assert (Hx : x <> 0) by (intros ->; apply N1; left; reflexivity). destruct (Z.eqb_spec x 0); [congruence|]. cbn [negb].
    eexists. split; [reflexivity|]. split; [lia|discriminate].
  - assert (Hx : x <> 0) by (intros ->; apply N1; left; reflexivity).
    destruct (Z.eqb_spec x y) as [->|Hxy]; cbn [negb].
    + destruct (Z.eqb_spec y 0); [congruence|]. destruct (IH s t r1 r2) as (c & E & H).
      * intros I. apply N1. right. exact I.
      * intros I. apply N2. right. exact I.
      * exists c. split; [exact E|]. rewrite H. split; [intros ->; reflexivity|congruence].
    + eexists. split; [reflexivity|]. split; [lia|congruence].
Qed.

Lemma until_nul_spec t rest : ~ In 0 t -> until_nul (t ++ 0 :: rest) = Some t.
Proof.
  induction t as [|c t IH]; intros N; cbn [app until_nul]; [reflexivity|].
  destruct (Z.eqb_spec c 0) as [->|Hc]; [exfalso; apply N; left; reflexivity|]. rewrite IH by (intros I; apply N; right; exact I). reflexivity.
Qed.

Lemma not_in_firstn n (t : list Z) x : ~ In x t -> ~ In x (firstn n t).
Proof. intros N I. apply N. rewrite <- (firstn_skipn n t). apply in_or_app. left. exact I. Qed.

(** A name in the area. *)
Definition stored (area : list Z) (p : Z) (r : list Z) : Prop :=
  0 <= p <= Z.of_nat (length area) /\ ~ In 0 r /\ firstn 255 r = r /\ exists rest, skipn (Z.to_nat p) area = r ++ 0 :: rest.

Lemma stored_app area more p r : stored area p r -> stored (area ++ more) p r.
Proof.
  intros (B & N & F & rest & E). split; [rewrite app_length; lia|]. split; [exact N|]. split; [exact F|]. exists (rest ++ more).
  rewrite skipn_app, E. replace (Z.to_nat p - length area)%nat with 0%nat by lia. cbn [skipn]. rewrite <- app_assoc. reflexivity.
Qed.

Definition mem (x : list Z) (R : list (list Z)) : bool := if in_dec (list_eq_dec Z.eq_dec) x R then true else false.
Definition add (R : list (list Z)) (x : list Z) : list (list Z) := if mem x R then R else R ++ [x].

Lemma known_spec t area vector R : Forall2 (stored area) vector R -> ~ In 0 t ->
  known (t ++ [0]) area vector = Some (mem (firstn 255 t) R).
Proof.
  intros F N. induction F as [|p r vector R (B & N2 & F1 & rest & E) F IH]; [reflexivity|].
  cbn [known]. rewrite E. destruct (strncmp_spec NAME_MAX t r [] rest N N2) as (c & -> & H). cbn [bind].
  rewrite IH. unfold mem in *. destruct (Z.eqb_spec c 0) as [Hc|Hc].
  - apply H in Hc. unfold NAME_MAX in Hc. rewrite F1 in Hc. destruct (in_dec (list_eq_dec Z.eq_dec) (firstn 255 t) (r :: R)) as [|Q]; [reflexivity|].
    exfalso. apply Q. left. symmetry. exact Hc.
  - destruct (in_dec (list_eq_dec Z.eq_dec) (firstn 255 t) (r :: R)) as [[Q|Q]|Q]; destruct (in_dec (list_eq_dec Z.eq_dec) (firstn 255 t) R) as [Q2|Q2];
      try reflexivity; try contradiction.
    + exfalso. apply Hc, H. unfold NAME_MAX. rewrite F1. symmetry. exact Q.
    + exfalso. apply Q. right. exact Q2.
Qed.

Lemma firsts_fold l : forall R, fold_left add l R = R ++ filter (fun y => negb (mem y R)) (firsts l).
Proof.
  induction l as [|x l IH]; intros R; cbn [fold_left firsts filter]; [symmetry; apply app_nil_r|]. rewrite IH. unfold add.
  destruct (mem x R) eqn:M; cbn [negb].
  - f_equal. clear IH. induction (firsts l) as [|y k IHk]; [reflexivity|]. cbn [filter].
    destruct (list_eq_dec Z.eq_dec x y) as [<-|Hxy]; [rewrite M; cbn [negb]; exact IHk|]. cbn [filter]. rewrite IHk. reflexivity.
  - rewrite <- app_assoc. cbn [app]. do 2 f_equal. clear IH. induction (firsts l) as [|y k IHk]; [reflexivity|]. cbn [filter].
    assert (E : mem y (R ++ [x]) = if list_eq_dec Z.eq_dec x y then true else mem y R).
    { unfold mem. destruct (list_eq_dec Z.eq_dec x y) as [<-|Hxy];
        destruct (in_dec (list_eq_dec Z.eq_dec) _ (R ++ [x])) as [Q|Q]; try reflexivity.
      - exfalso. apply Q, in_or_app. right. left. reflexivity.
      - destruct (in_dec (list_eq_dec Z.eq_dec) y R) as [Q2|Q2]; [reflexivity|]. apply in_app_or in Q. destruct Q as [Q|[Q|[]]]; contradiction.
      - destruct (in_dec (list_eq_dec Z.eq_dec) y R) as [Q2|Q2]; [|reflexivity]. exfalso. apply Q, in_or_app. left. exact Q2. }
    rewrite E. destruct (list_eq_dec Z.eq_dec x y) as [<-|Hxy]; cbn [negb]; [exact IHk|]. cbn [filter]. rewrite IHk. reflexivity.
Qed.

(** What the first loop adds up. *)
Fixpoint count (l : list (list Z)) : Z := match l with [] => 0 | t :: l => 1 + count l end.
Fixpoint octets_of (l : list (list Z)) : Z := match l with [] => 0 | t :: l => Z.of_nat (length t) + 1 + octets_of l end.
Lemma count_nonneg l : 0 <= count l. Proof. induction l; cbn [count]; lia. Qed.
Lemma octets_nonneg l : 0 <= octets_of l. Proof. induction l; cbn [octets_of]; lia. Qed.

Lemma entry_text name a : entry_ok (Some name, a) -> exists t, name = t ++ [0] /\ ~ In 0 t /\ text (Some name, a) = Some (firstn 255 t).
Proof.
  intros (H & _). destruct (H name eq_refl) as (t & -> & N). exists t. split; [reflexivity|]. split; [exact N|].
  unfold text. cbn [fst]. rewrite removelast_last. reflexivity.
Qed.

Lemma sizes_spec l : forall vs ns, Forall entry_ok l ->
  sizes l vs ns = Some (vs + 8 * count (somes (map text l)), ns + octets_of (somes (map text l))).
Proof.
  induction l as [|[[name|] a] l IH]; intros vs ns F; cbn [sizes map somes].
  - cbn [count octets_of]. do 2 f_equal; lia.
  - destruct (entry_text name a (Forall_inv F)) as (t & -> & N & ->). cbn [somes count octets_of].
    rewrite (strnlen_spec NAME_MAX t [] N). cbn [bind]. rewrite IH by exact (Forall_inv_tail F). unfold NAME_MAX. do 2 f_equal; lia.
  - unfold text at 1 3. cbn [fst somes]. apply IH. exact (Forall_inv_tail F).
Qed.

Lemma names_spec l : forall vs ns vector area R, Forall entry_ok l -> Forall2 (stored area) vector R ->
  8 * (Z.of_nat (length vector) + count (somes (map text l)) + 1) <= vs ->
  Z.of_nat (length area) + octets_of (somes (map text l)) <= ns ->
  exists vector' area', names l vs ns vector area = Some (vector', area') /\
    Forall2 (stored area') vector' (fold_left add (somes (map text l)) R) /\
    8 * (Z.of_nat (length vector') + 1) <= vs /\ Z.of_nat (length area') <= ns.
Proof.
  induction l as [|[[name|] a] l IH]; intros vs ns vector area R F S V N; cbn [names map somes].
  - cbn [map somes count octets_of] in *. eexists _, _. split; [reflexivity|]. split; [exact S|]. lia.
  - destruct (entry_text name a (Forall_inv F)) as (t & -> & N0 & T). cbn [map somes] in V, N. rewrite T in *. cbn [somes count octets_of fold_left] in *.
    pose proof (count_nonneg (somes (map text l))) as C0. pose proof (octets_nonneg (somes (map text l))) as O0.
    rewrite (known_spec t area vector R S N0). cbn [bind]. unfold add at 2. destruct (mem (firstn 255 t) R) eqn:M.
    + apply IH; [exact (Forall_inv_tail F)|exact S|lia|lia].
    + destruct (Z.leb_spec (8 * (Z.of_nat (length vector) + 1)) vs) as [_|Q]; [cbn [negb]|lia].
      rewrite (strnlen_spec NAME_MAX t [] N0). cbn [bind]. unfold NAME_MAX.
      destruct (Z.leb_spec (Z.of_nat (length area) + Z.of_nat (length (firstn 255 t)) + 1) ns) as [_|Q]; [cbn [negb]|lia].
      rewrite Nat2Z.id.
      assert (E : firstn (length (firstn 255 t)) (t ++ [0]) = firstn 255 t).
      { rewrite firstn_app. replace (length (firstn 255 t) - length t)%nat with 0%nat by (rewrite firstn_length; lia). change (firstn 0 [0]) with (@nil Z). rewrite app_nil_r.
        rewrite firstn_length. destruct (Nat.min_spec 255 (length t)) as [(_ & ->)|(L & ->)]; [reflexivity|]. rewrite !firstn_all2 by lia. reflexivity. }
      rewrite E. apply IH; [exact (Forall_inv_tail F)| | |].
      * apply Forall2_app; [|constructor; [|constructor]].
        -- clear -S. induction S; constructor; [apply stored_app; assumption|assumption].
        -- split; [rewrite !app_length; cbn [length]; lia|]. split; [apply not_in_firstn, N0|]. split; [rewrite firstn_firstn; f_equal|].
           exists []. rewrite Nat2Z.id, skipn_app, skipn_all, Nat.sub_diag. reflexivity.
      * rewrite app_length. cbn [length]. lia.
      * rewrite !app_length. cbn [length]. lia.
  - unfold text in V, N |- *. cbn [map somes fst] in V, N |- *. apply IH; [exact (Forall_inv_tail F)|exact S|exact V|exact N].
Qed.

(** Addresses. *)
Lemma measure_spec entry w (f : ifaddrs -> option (list Z)) l : forall vs,
  Forall (fun e => entry e = Some (f e)) l ->
  measure entry w l vs = Some (vs + w * Z.of_nat (length (somes (map f l)))).
Proof.
  induction l as [|e l IH]; intros vs F; cbn [measure map somes]; [cbn [length]; f_equal; lia|].
  rewrite (Forall_inv F). cbn [bind]. rewrite IH by exact (Forall_inv_tail F). destruct (f e); cbn [somes length]; f_equal; lia.
Qed.

Lemma store_spec {A} entry w (host : list Z -> A) (f : ifaddrs -> option (list Z)) l : forall vs vector, 0 < w ->
  Forall (fun e => entry e = Some (f e)) l ->
  w * (Z.of_nat (length vector) + Z.of_nat (length (somes (map f l)))) <= vs ->
  store entry w host l vs vector = Some (vector ++ map host (somes (map f l))).
Proof.
  induction l as [|e l IH]; intros vs vector W F B; cbn [store map somes]; [rewrite app_nil_r; reflexivity|].
  rewrite (Forall_inv F). cbn [bind map somes] in *. destruct (f e) as [a|]; cbn [somes length map] in *.
  - destruct (Z.leb_spec (w * (Z.of_nat (length vector) + 1)) vs) as [_|Q]; [cbn [negb]|nia].
    rewrite IH; [rewrite <- app_assoc; reflexivity|exact W|exact (Forall_inv_tail F)|rewrite app_length; cbn [length]; nia].
  - apply IH; [exact W|exact (Forall_inv_tail F)|exact B].
Qed.

Definition pick4 (name : list Z) (e : ifaddrs) : option (list Z) :=
  if with_name name e then match snd e with Some (Inet4 a _) => Some a | _ => None end else None.
Definition pick6 (name : list Z) (e : ifaddrs) : option (list Z) :=
  if with_name name e then match snd e with Some (Inet6 a _) => Some a | _ => None end else None.

Lemma name_cmp t name : ~ In 0 t -> ~ In 0 name -> forall a, exists c, strncmp NAME_MAX (t ++ [0]) (name ++ [0]) = Some c /\
  (c =? 0) = with_name name (Some (t ++ [0]), a).
Proof.
  intros N1 N2 a. destruct (strncmp_spec NAME_MAX t name [] [] N1 N2) as (c & E & H). exists c. split; [exact E|].
  unfold with_name, text. cbn [fst]. rewrite removelast_last. unfold NAME_MAX in H.
  destruct (list_eq_dec Z.eq_dec (firstn 255 t) (firstn 255 name)) as [Q|Q]; [apply Z.eqb_eq, H, Q|]. apply Z.eqb_neq. intros K. apply Q, H, K.
Qed.

Lemma entry4_spec name e : entry_ok e -> ~ In 0 name -> entry4 (name ++ [0]) e = Some (pick4 name e).
Proof.
  intros H N. destruct e as [[s|] sa]; [|reflexivity]. destruct (entry_text s sa H) as (t & -> & N0 & _). unfold pick4, entry4. cbn [snd].
  destruct (name_cmp t name N0 N sa) as (c & E & W). destruct sa as [[a p|a p|]|]; try (destruct (with_name name _); reflexivity).
  rewrite E. cbn [bind]. rewrite <- W. destruct (c =? 0); reflexivity.
Qed.
Lemma entry6_spec name e : entry_ok e -> ~ In 0 name -> entry6 (name ++ [0]) e = Some (pick6 name e).
Proof.
  intros H N. destruct e as [[s|] sa]; [|reflexivity]. destruct (entry_text s sa H) as (t & -> & N0 & _). unfold pick6, entry6. cbn [snd].
  destruct (name_cmp t name N0 N sa) as (c & E & W). destruct sa as [[a p|a p|]|]; try (destruct (with_name name _); reflexivity).
  rewrite E. cbn [bind]. rewrite <- W. destruct (c =? 0); reflexivity.
Qed.

Lemma picked4 le name l : Forall entry_ok l ->
  map (fun a => ntohl le (load32 le a)) (somes (map (pick4 name) l)) = somes (map four (filter (with_name name) l)).
Proof.
  intros F. induction F as [|e l H F IH]; [reflexivity|]. cbn [map somes filter]. unfold pick4 at 1. destruct (with_name name e); [|exact IH].
  cbn [map somes]. unfold four at 1. destruct (snd e) as [[a p|a p|]|] eqn:E; try exact IH. cbn [map]. rewrite IH. f_equal.
  destruct H as (_ & H). destruct (H _ E) as (L & _ & O & _). apply load32_network; assumption.
Qed.
Lemma picked6 le name l : Forall entry_ok l ->
  let r := map (fun a => ntoh6 le (load6 le a)) (somes (map (pick6 name) l)) in
  map number6 r = somes (map six (filter (with_name name) l)) /\ Forall address6 r.
Proof.
  cbn zeta. intros F. induction F as [|e l H F (IH1 & IH2)]; [split; constructor|]. cbn [map somes filter]. unfold pick6 at 1 4. destruct (with_name name e); [|split; assumption].
  cbn [map somes]. unfold six at 1. destruct (snd e) as [[a p|a p|]|] eqn:E; try (split; assumption). cbn [map]. rewrite IH1.
  destruct H as (_ & H). destruct (H _ E) as (L & _ & O & _).
  destruct (load6_ntoh le a 8 L O) as (K1 & K2 & K3). split; [f_equal; assumption|]. constructor; [split; assumption|exact IH2].
Qed.
