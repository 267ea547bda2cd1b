(** Property C73. *)

From Coq Require Import ZArith List Bool Lia.
From Verif Require Import CInt CUtil IpModel IpSpec IpProofs NetifModel NetifSpec NetifProofs.
Import ListNotations.
Local Open Scope Z_scope.

(** The names of the interfaces: each one of the system, just once, in the order of
    their first entries, as strings in the block the vector is in; a null pointer ends
    the vector, and nothing is stored outside the block. *)
Theorem C73_names : forall l, Forall entry_ok l ->
  exists pointers area, interfaces (Some l) = Some (Some (map Some pointers ++ [None], area)) /\
    let texts := firsts (somes (map text l)) in
    map (string_at area) pointers = map Some texts /\
    NoDup texts /\ (forall x, In x texts <-> In x (somes (map text l))).
Proof.
  intros l F. unfold interfaces. rewrite sizes_spec by exact F. cbn [bind].
  destruct (names_spec l (8 + 8 * count (somes (map text l))) (0 + octets_of (somes (map text l))) [] [] [] F) as (v & area & E & S & B & _); [constructor|cbn [length]; lia|cbn [length]; lia|].
  rewrite E. cbn [bind]. destruct (Z.leb_spec (8 * (Z.of_nat (length v) + 1)) (8 + 8 * count (somes (map text l)))) as [_|Q]; [cbn [negb]|lia].
  exists v, area. split; [reflexivity|]. cbn zeta. split; [|split].
  - rewrite firsts_fold in S. cbn [app] in S.
    assert (X : forall k, filter (fun y => negb (mem y [])) k = k) by (induction k as [|y k IH]; [reflexivity|cbn [filter mem]; cbn; f_equal; exact IH]).
    rewrite X in S. clear -S. induction S as [|p r v R (_ & N & _ & rest & E) S IH]; [reflexivity|]. cbn [map]. rewrite IH. f_equal.
    unfold string_at. rewrite E. apply until_nul_spec, N.
  - generalize (somes (map text l)). clear. induction l as [|x l IH]; [constructor|]. cbn [firsts]. constructor.
    + intros I. apply filter_In in I. destruct I as (_ & I). destruct (list_eq_dec Z.eq_dec x x); [discriminate I|congruence].
    + apply NoDup_filter, IH.
  - generalize (somes (map text l)). clear. induction l as [|y l IH]; intros x; [reflexivity|]. cbn [firsts In]. rewrite filter_In, IH.
    split; [intros [H|(H & _)]; auto|]. intros [H|H]; [auto|]. destruct (list_eq_dec Z.eq_dec y x) as [K|K]; auto.
Qed.
Print Assumptions C73_names.

(** The addresses of an interface: those of its entries, in order, and a zero. *)
Theorem C73_interface4 : forall le l name, Forall entry_ok l -> ~ In 0 name ->
  interface4 le (Some l) (name ++ [0]) = Some (Some (somes (map four (filter (with_name name) l)) ++ [0])).
Proof.
  intros le l name F N. unfold interface4.
  assert (E : Forall (fun e => entry4 (name ++ [0]) e = Some (pick4 name e)) l) by (eapply Forall_impl; [|exact F]; intros e H; apply entry4_spec; assumption).
  rewrite (measure_spec _ 4 _ l 4 E). cbn [bind]. rewrite (store_spec _ 4 _ _ l _ [] ltac:(lia) E) by (cbn [length]; lia). cbn [bind app].
  rewrite map_length. destruct (Z.leb_spec (4 * (Z.of_nat (length (somes (map (pick4 name) l))) + 1)) (4 + 4 * Z.of_nat (length (somes (map (pick4 name) l))))) as [_|Q]; [cbn [negb]|lia].
  rewrite picked4 by exact F. reflexivity.
Qed.
Print Assumptions C73_interface4.

Theorem C73_interface6 : forall le l name, Forall entry_ok l -> ~ In 0 name ->
  exists r, interface6 le (Some l) (name ++ [0]) = Some (Some r) /\ Forall address6 r /\
    map number6 r = somes (map six (filter (with_name name) l)) ++ [0].
Proof.
  intros le l name F N. unfold interface6.
  assert (E : Forall (fun e => entry6 (name ++ [0]) e = Some (pick6 name e)) l) by (eapply Forall_impl; [|exact F]; intros e H; apply entry6_spec; assumption).
  rewrite (measure_spec _ 16 _ l 16 E). cbn [bind]. rewrite (store_spec _ 16 _ _ l _ [] ltac:(lia) E) by (cbn [length]; lia). cbn [bind app].
  rewrite map_length. destruct (Z.leb_spec (16 * (Z.of_nat (length (somes (map (pick6 name) l))) + 1)) (16 + 16 * Z.of_nat (length (somes (map (pick6 name) l))))) as [_|Q]; [cbn [negb]|lia].
  eexists. split; [reflexivity|]. destruct (picked6 le name l F) as (P1 & P2). split.
  - apply Forall_app. split; [exact P2|]. constructor; [apply addr_unspec|constructor].
  - rewrite map_app, P1. reflexivity.
Qed.
Print Assumptions C73_interface6.

(** What a program reads from such a list is all of it, unless an address is zero. *)
Theorem C73_read : forall r, ~ In 0 r -> read_list (r ++ [0]) = r.
Proof.
  induction r as [|x r IH]; intros N; [reflexivity|]. cbn [app read_list]. destruct (Z.eqb_spec x 0) as [->|_]; [exfalso; apply N; left; reflexivity|].
  rewrite IH by (intros I; apply N; right; exact I). reflexivity.
Qed.
Print Assumptions C73_read.

(** An interface that has the address 0.0.0.0 hides those after it. *)
Theorem C73_zero_refuted : forall le, exists l name r, Forall entry_ok l /\
  interface4 le (Some l) (name ++ [0]) = Some (Some r) /\
  somes (map four (filter (with_name name) l)) = [0; 3232235777] /\ read_list r = [].
Proof.
  intros le. exists [(Some [101; 0], Some (Inet4 [0; 0; 0; 0] [0; 0])); (Some [101; 0], Some (Inet4 [192; 168; 1; 1] [0; 0]))], [101], [0; 3232235777; 0].
  assert (X : forall a, octets a -> length a = 4%nat -> entry_ok (Some [101; 0], Some (Inet4 a [0; 0]))).
  { intros a O L. split; cbn [fst snd].
    - intros s E. injection E as <-. exists [101]. split; [reflexivity|]. intros [I|[]]. discriminate I.
    - intros sa E. injection E as <-. split; [exact L|]. split; [reflexivity|]. split; [exact O|]. repeat (apply Forall_cons; [red; lia|]); apply Forall_nil. }
  split; [|split; [destruct le; reflexivity|split; reflexivity]].
  apply Forall_cons; [|apply Forall_cons; [|apply Forall_nil]]; apply X; try reflexivity; repeat (apply Forall_cons; [red; lia|]); apply Forall_nil.
Qed.
Print Assumptions C73_zero_refuted.

(** The addresses of a host: the one the name spells, or those the resolver knows, in
    order, and a zero; a null pointer if there are none. The one address of a host is
    the first of them. *)
Theorem C73_addresses4 : forall le aton host,
  (forall a, aton = Some a -> length a = 4%nat /\ octets a) -> (forall h, host = Some h -> host_ok h) ->
  let known := match aton, host with
               | Some a, _ => [network a]
               | None, Some h => if inet h then map network (h_addr_list h) else []
               | None, None => []
               end in
  addresses4 le aton host = Some (if known then None else Some (known ++ [0])) /\
  ((aton = None -> forall h, host = Some h -> h_addr_list h <> []) -> address4 le aton host = Some (hd 0 known)).
Proof.
  intros le aton host A H. cbn zeta. unfold addresses4, address4. destruct aton as [a|].
  { destruct (A a eq_refl) as (L & O). rewrite load32_network by assumption. split; reflexivity. }
  destruct host as [h|]; [|split; reflexivity]. destruct (inet h); cbn [negb]; [|split; reflexivity].
  destruct (H h eq_refl) as (HL & HF).
  assert (I : forall a, length a = 4%nat -> octets a -> inaddr le (h_length h) a = Some (network a)).
  { intros a L O. unfold inaddr. rewrite HL. cbn [Z.ltb Z.compare Pos.compare Pos.compare_cont].
    rewrite L. cbn [Z.leb Z.of_nat Z.compare andb]. change (Z.to_nat 4) with 4%nat. rewrite firstn_all2 by lia. rewrite L, Nat.sub_diag, app_nil_r.
    rewrite load32_network by assumption. reflexivity. }
  assert (J : forall l, Forall (fun a => length a = 4%nat /\ octets a) l -> hosts le (h_length h) l = Some (map network l)).
  { induction l as [|a l IH]; intros F; [reflexivity|]. cbn [hosts map]. destruct (Forall_inv F) as (L & O). rewrite (I a L O), (IH (Forall_inv_tail F)). reflexivity. }
  destruct (h_addr_list h) as [|a l] eqn:E.
  - split; [reflexivity|]. intros K. exfalso. exact (K eq_refl h eq_refl E).
  - rewrite (J _ HF). cbn [bind map hd]. split; [reflexivity|]. intros _. destruct (Forall_inv HF) as (L & O). apply I; assumption.
Qed.
Print Assumptions C73_addresses4.

(** Without that the first of them is read although there is none. *)
Theorem C73_address4_refuted : forall le n, address4 le None (Some (mkhostent true n [])) = None /\
  addresses4 le None (Some (mkhostent true n [])) = Some None.
Proof. intros le n. split; reflexivity. Qed.
Print Assumptions C73_address4_refuted.

(** A case in which the hypotheses hold: "lo" and "eth", two entries each, one without
    a name and one without an address. *)
Example C73_example :
  let lo := [108; 111; 0] in let eth := [101; 116; 104; 0] in
  let v6 := [254; 128; 0; 0; 0; 0; 0; 0; 0; 0; 0; 0; 0; 0; 0; 1] in
  let l := [(Some lo, Some (Inet4 [127; 0; 0; 1] [0; 0])); (Some eth, Some (Inet4 [10; 0; 0; 7] [0; 0])); (None, None);
            (Some lo, Some OtherFamily); (Some eth, Some (Inet6 v6 [0; 0])); (Some eth, None)] in
  Forall entry_ok l /\
  interfaces (Some l) = Some (Some ([Some 0; Some 3; None], [108; 111; 0; 101; 116; 104; 0])) /\
  interface4 true (Some l) eth = Some (Some [167772167; 0]) /\
  interface6 true (Some l) eth = Some (Some [[65152; 0; 0; 0; 0; 0; 0; 1]; [0; 0; 0; 0; 0; 0; 0; 0]]) /\
  host_ok (mkhostent true 4 [[10; 0; 0; 7]; [10; 0; 0; 8]]) /\
  addresses4 true None (Some (mkhostent true 4 [[10; 0; 0; 7]; [10; 0; 0; 8]])) = Some (Some [167772167; 167772168; 0]).
Proof.
  cbn zeta. split; [|split; [reflexivity|split; [reflexivity|split; [reflexivity|split; [split; [reflexivity|]|reflexivity]]]]].
  - repeat (apply Forall_cons; [split; cbn [fst snd]; [intros s E; try discriminate E; injection E as <-|intros sa E; try discriminate E; injection E as <-]|]); [..|apply Forall_nil].
    all: try (exists [108; 111]; split; [reflexivity|intros I; repeat destruct I as [I|I]; try discriminate I; contradiction]).
    all: try (exists [101; 116; 104]; split; [reflexivity|intros I; repeat destruct I as [I|I]; try discriminate I; contradiction]).
    all: try exact I.
    all: split; [reflexivity|split; [reflexivity|split; repeat (apply Forall_cons; [red; lia|]); apply Forall_nil]].
  - repeat (apply Forall_cons; [split; [reflexivity|repeat (apply Forall_cons; [red; lia|]); apply Forall_nil]|]); apply Forall_nil.
Qed.
Print Assumptions C73_example.
