From Coq Require Import ZArith List Bool Lia.
From Verif Require Import CInt IpModel IpSpec IpProofs SocketModel SocketSpec.
Import ListNotations.
Local Open Scope Z_scope.

Section ladder.
  Variables (k : kernel).

  (** One step: at most one call, and a result below zero if it fails. *)
  Definition rung (m : M Z) (cs : list call) : Prop :=
    (cs = [] /\ forall h, exists r, 0 <= r /\ m h = (r, [])) \/
    (exists c, cs = [c] /\ forall h, exists rc, m h = (rc, [(c, k h c)]) /\ (rc <? 0) = (k h c <? 0)).

  Definition step (fd : Z) (m : M Z) (n : M Z) : M Z :=
    seq m (fun rc => if rc <? 0 then seq (close_ k fd) (fun _ => ret rc) else n).

  Definition ok (fd : Z) (steps : list call) (m : M Z) : Prop :=
    forall h, carried_out fd steps (snd (m h)) (fst (m h)).

  Lemma step_ok fd m n cs steps : rung m cs -> ok fd steps n -> ok fd (cs ++ steps) (step fd m n).
  Proof.
    intros R N h. unfold step, seq. destruct R as [(-> & R)|(c & -> & R)].
    - destruct (R h) as (r & R0 & ->). destruct (Z.ltb_spec r 0); [lia|]. rewrite app_nil_r. specialize (N h).
      destruct (n h) as [b e2]. exact N.
    - destruct (R h) as (rc & -> & E). cbn [app carried_out]. destruct (rc <? 0) eqn:B.
      + cbn [fst snd close_ libc seq sys ret app]. split; [reflexivity|]. rewrite <- E. split; [apply Z.ltb_lt, B|]. eexists. reflexivity.
      + specialize (N (h ++ [(c, k h c)])). destruct (n (h ++ [(c, k h c)])) as [b e2]. cbn [fst snd app] in *.
        split; [reflexivity|]. rewrite <- E. exact N.
  Qed.

  Lemma end_ok fd : ok fd [] (ret fd).
  Proof. intros h. cbn. auto. Qed.

  Lemma inject_rung fd f : 0 <= fd -> rung (inject k fd f) (injected f fd).
  Proof.
    intros H. destruct f; [right|left].
    - exists (Inject fd). split; [reflexivity|]. intros h. eexists. split; reflexivity.
    - split; [reflexivity|]. intros h. exists fd. split; [exact H|reflexivity].
  Qed.

  Lemma libc_rung c : rung (libc k c) [c].
  Proof.
    right. exists c. split; [reflexivity|]. intros h. eexists. split; [reflexivity|]. destruct (Z.ltb_spec (k h c) 0); [reflexivity|].
    apply Z.ltb_ge. lia.
  Qed.

  Definition device (i : list Z) : list Z := match i with [] => [] | _ => firstn 15 (strncpy 16 i) ++ [0] end.
  Definition devices (interface : option (list Z)) (fd : Z) : list call :=
    match interface with None => [] | Some i => [Device fd (device i)] end.

  Lemma interface_rung fd i : 0 <= fd -> rung (set_interface k fd i) (devices i fd).
  Proof.
    intros H. destruct i as [i|]; [right|left].
    - exists (Device fd (device i)). split; [reflexivity|]. intros h. eexists. split; [reflexivity|].
      fold (device i). destruct (Z.leb_spec 0 (k h (Device fd (device i)))), (Z.ltb_spec (k h (Device fd (device i))) 0); try lia.
      destruct (_ =? _); reflexivity.
    - split; [reflexivity|]. intros h. exists fd. split; [exact H|reflexivity].
  Qed.

  Definition locals (path : list Z) (fd : Z) : list call :=
    match path with [] => [] | _ => [Bind fd (Local (strncpy 108 path))] end.

  Lemma sourcel_rung fd p : 0 <= fd -> rung (sourcel k fd (Some p)) (locals p fd).
  Proof.
    intros H. destruct p as [|c p]; [left|apply libc_rung]. split; [reflexivity|]. intros h. exists fd. split; [exact H|reflexivity].
  Qed.

  Lemma made_ok f d steps n : (forall fd, 0 <= fd -> ok fd (steps fd) (n fd)) -> forall h,
    let '(rc, evs) := seq (libc k (Socket f d)) (fun fd => if fd <? 0 then ret fd else n fd) h in
    made (Socket f d) steps evs rc.
  Proof.
    intros N h. unfold seq, libc, sys, seq, ret. cbn [app]. set (r := k h (Socket f d)).
    destruct (Z.ltb_spec r 0) as [Hr|Hr].
    - cbn. split; [reflexivity|]. destruct (Z.ltb_spec r 0); [auto|lia].
    - destruct (Z.ltb_spec r 0); [lia|]. match goal with |- context [n r ?x] => specialize (N r Hr x); destruct (n r x) as [b e2] end. cbn [app made]. split; [reflexivity|].
      destruct (Z.ltb_spec r 0); [lia|]. exact N.
  Qed.
End ladder.

(** Names. *)
Lemma firstn_repeat {A} (x : A) : forall a b, (a <= b)%nat -> firstn a (repeat x b) = repeat x a.
Proof. induction a as [|a IH]; intros b Hb; [reflexivity|destruct b; [lia|cbn; f_equal; apply IH; lia]]. Qed.

Lemma strncpy_short n p : (length p <= n)%nat -> strncpy n p = p ++ repeat 0 (n - length p).
Proof.
  intros H. unfold strncpy. rewrite firstn_app. rewrite firstn_all2 by exact H. f_equal. apply firstn_repeat. lia.
Qed.

Lemma strncpy_len n p : length (strncpy n p) = n.
Proof. unfold strncpy. rewrite firstn_length, app_length, repeat_length. lia. Qed.

Lemma firstn_strncpy m n p : (m <= n)%nat -> firstn m (strncpy n p) = strncpy m p.
Proof.
  intros H. unfold strncpy. rewrite firstn_firstn. rewrite Nat.min_l by exact H. rewrite !firstn_app. f_equal.
  rewrite !firstn_repeat by lia. reflexivity.
Qed.

Lemma device_spec i : device_of i (device i).
Proof.
  unfold device_of, device. destruct i as [|c i]; [left; auto|]. right. split; [discriminate|]. set (l := c :: i).
  rewrite firstn_strncpy by lia. split; [rewrite app_length, strncpy_len; reflexivity|].
  assert (S15 : strncpy 15 l = firstn 15 l ++ repeat 0 (15 - length l)) by (unfold strncpy; rewrite firstn_app, firstn_repeat by lia; reflexivity).
  rewrite S15. clearbody l. clear S15.
  destruct (Nat.le_gt_cases (length l) 15) as [Q|Q].
  - rewrite Nat.min_r by lia. rewrite (firstn_all2 (n := 15) l) by lia. rewrite <- app_assoc. split.
    + rewrite firstn_app, firstn_all, Nat.sub_diag. apply app_nil_r.
    + rewrite skipn_app, skipn_all, Nat.sub_diag. cbn [app skipn]. apply Forall_app. split; [|constructor; [reflexivity|constructor]].
      apply Forall_forall. intros x Hx. apply repeat_spec in Hx. congruence.
  - rewrite Nat.min_l by lia. replace (15 - length l)%nat with O by lia. cbn [repeat]. rewrite app_nil_r.
    assert (L : length (firstn 15 l) = 15%nat) by (rewrite firstn_length; lia). split.
    + rewrite firstn_app, L. rewrite firstn_all2 by lia. cbn. apply app_nil_r.
    + rewrite skipn_app, L. rewrite skipn_all2 by lia. cbn. constructor; [reflexivity|constructor].
Qed.

Lemma port_name le p : is_u16 p -> length (store16 le (htons le p)) = 2%nat /\
  Forall (fun x => 0 <= x < 256) (store16 le (htons le p)) /\ network (store16 le (htons le p)) = p.
Proof.
  intros U. rewrite store16_hton by exact U. split; [reflexivity|]. red in U. split.
  - constructor; [|constructor; [apply Z.mod_pos_bound; lia|constructor]]. split; [apply Z.div_pos; lia|apply Z.div_lt_upper_bound; lia].
  - change (network [p / 256; p mod 256]) with ((0 * 256 + p / 256) * 256 + p mod 256). pose proof (Z.div_mod p 256). lia.
Qed.

Lemma address_name le a : is_u32 a -> length (store32 le (htonl le a)) = 4%nat /\
  Forall (fun x => 0 <= x < 256) (store32 le (htonl le a)) /\ network (store32 le (htonl le a)) = a.
Proof.
  intros U. destruct (quad_ex a U) as (x & y & z & w & X & Y & Z1 & W & ->).
  assert (E : store32 le (htonl le (quad x y z w)) = [x; y; z; w]).
  { unfold store32, htonl. destruct le.
    - rewrite swap32_quad by assumption. destruct (quad_parts w z y x W Z1 Y X) as (-> & -> & -> & ->). reflexivity.
    - destruct (quad_parts x y z w X Y Z1 W) as (-> & -> & -> & ->). reflexivity. }
  rewrite E. split; [reflexivity|]. split; [repeat constructor; unfold is_u8 in *; lia|].
  unfold network, quad. cbn [fold_left]. ring.
Qed.

Lemma name4_spec le a p : is_u32 a -> is_u16 p -> names4 (name4 le a p) a p.
Proof.
  intros Ua Up. destruct (port_name le p Up) as (P1 & P2 & P3). destruct (address_name le a Ua) as (A1 & A2 & A3).
  unfold name4. replace (if a =? 0 then 0 else htonl le a) with (htonl le a).
  - eexists _, _. split; [reflexivity|]. rewrite Forall_app. auto.
  - destruct (Z.eqb_spec a 0) as [->|]; [destruct le; reflexivity|reflexivity].
Qed.

Lemma connect4_spec le a p : is_u32 a -> is_u16 p -> names4 (Inet (Inet4 (store32 le (htonl le a)) (store16 le (htons le p)))) a p.
Proof.
  intros Ua Up. destruct (port_name le p Up) as (P1 & P2 & P3). destruct (address_name le a Ua) as (A1 & A2 & A3).
  eexists _, _. split; [reflexivity|]. rewrite Forall_app. auto.
Qed.

Lemma mem6_name le a : address6 a -> length (mem6 le (hton6 le a)) = 16%nat /\
  Forall (fun x => 0 <= x < 256) (mem6 le (hton6 le a)) /\ network (mem6 le (hton6 le a)) = number6 a.
Proof.
  intros A. destruct (hton_address le a A) as (L & F). split; [rewrite mem6_len, L; reflexivity|].
  split; [apply mem6_octets, F|]. apply mem6_hton, A.
Qed.

Lemma connect6_spec le a p : address6 a -> is_u16 p -> names6 (Inet (Inet6 (mem6 le (hton6 le a)) (store16 le (htons le p)))) a p.
Proof.
  intros Ua Up. destruct (port_name le p Up) as (P1 & P2 & P3). destruct (mem6_name le a Ua) as (A1 & A2 & A3).
  eexists _, _. split; [reflexivity|]. rewrite Forall_app. auto.
Qed.

Lemma name6_spec le a p : address6 a -> is_u16 p -> names6 (name6 le a p) a p.
Proof.
  intros Ua Up. unfold name6. destruct (is_unspecified6 le a) eqn:E; [|apply connect6_spec; assumption].
  apply compare6_eq in E; [|exact Ua|apply addr_unspec]. subst a.
  pose proof (connect6_spec le UNSPECIFIED6 p Ua Up) as C. replace (repeat 0 16) with (mem6 le (hton6 le UNSPECIFIED6)); [exact C|].
  destruct le; reflexivity.
Qed.

(** The functions are ladders. *)
Ltac climb k := repeat first
  [ apply end_ok
  | match goal with |- ok ?fd _ (seq ?m (fun rc => if rc <? 0 then _ else ?n)) =>
      change (seq m (fun rc => if rc <? 0 then seq (close_ k fd) (fun _ => ret rc) else n)) with (step k fd m n)
    end; apply step_ok; [first [apply inject_rung; assumption | apply interface_rung; assumption | apply sourcel_rung; assumption | apply libc_rung]|] ].

Section functions.
  Variables (k : kernel) (le : bool) (mx : Z).

  Lemma p4 a p i b f h :
    let '(rc, evs) := ipc4_stream_provider_base k le a p i b f h in
    made (Socket AF_INET SOCK_STREAM)
      (fun fd => injected f fd ++ [Bind fd (name4 le a p)] ++ devices i fd ++ [Listen fd (if b <? 0 then 2147483647 else b)] ++ []) evs rc.
  Proof. apply made_ok. intros fd H. climb k. Qed.

  Lemma c4 a p a0 p0 i f h :
    let '(rc, evs) := ipc4_stream_consumer_base k le a p a0 p0 i f h in
    made (Socket AF_INET SOCK_STREAM)
      (fun fd => injected f fd ++ [Bind fd (name4 le a0 p0)] ++ devices i fd ++
        [Connect fd (Inet (Inet4 (store32 le (htonl le a)) (store16 le (htons le p))))] ++ []) evs rc.
  Proof. apply made_ok. intros fd H. climb k. Qed.

  Lemma d4 a p i f h :
    let '(rc, evs) := ipc4_datagram_peer_base k le a p i f h in
    made (Socket AF_INET SOCK_DGRAM) (fun fd => injected f fd ++ [Bind fd (name4 le a p)] ++ devices i fd ++ []) evs rc.
  Proof. apply made_ok. intros fd H. climb k. Qed.

  Lemma p6 a p i b f h :
    let '(rc, evs) := ipc6_stream_provider_base k le mx a p i b f h in
    made (Socket AF_INET6 SOCK_STREAM)
      (fun fd => injected f fd ++ [Bind fd (name6 le a p)] ++ devices i fd ++ [Listen fd (limited mx b)] ++ []) evs rc.
  Proof. apply made_ok. intros fd H. climb k. Qed.

  Lemma c6 a p a0 p0 i f h :
    let '(rc, evs) := ipc6_stream_consumer_base k le a p a0 p0 i f h in
    made (Socket AF_INET6 SOCK_STREAM)
      (fun fd => injected f fd ++ [Bind fd (name6 le a0 p0)] ++ devices i fd ++
        [Connect fd (Inet (Inet6 (mem6 le (hton6 le a)) (store16 le (htons le p))))] ++ []) evs rc.
  Proof. apply made_ok. intros fd H. climb k. Qed.

  Lemma d6 a p i f h :
    let '(rc, evs) := ipc6_datagram_peer_base k le a p i f h in
    made (Socket AF_INET6 SOCK_DGRAM) (fun fd => injected f fd ++ [Bind fd (name6 le a p)] ++ devices i fd ++ []) evs rc.
  Proof. apply made_ok. intros fd H. climb k. Qed.

  Lemma pl kd p b f h :
    let '(rc, evs) := ipcl_provider_base k mx kd (Some p) b f h in
    made (Socket AF_UNIX kd) (fun fd => injected f fd ++ locals p fd ++ [Listen fd (limited mx b)] ++ []) evs rc.
  Proof. apply made_ok. intros fd H. climb k. Qed.

  Lemma cl kd p p0 f h :
    let '(rc, evs) := ipcl_consumer_base k kd p (Some p0) f h in
    made (Socket AF_UNIX kd) (fun fd => injected f fd ++ locals p0 fd ++ [Connect fd (Local (strncpy 108 p))] ++ []) evs rc.
  Proof. apply made_ok. intros fd H. climb k. Qed.

  Lemma dl p f h :
    let '(rc, evs) := ipcl_datagram_peer_base k (Some p) f h in
    made (Socket AF_UNIX SOCK_DGRAM) (fun fd => injected f fd ++ locals p fd ++ []) evs rc.
  Proof. apply made_ok. intros fd H. climb k. Qed.
End functions.

(** Descriptors. *)
Definition harmless (c : call) : Prop := match c with Socket _ _ | Close _ => False | _ => True end.

Lemma carried_descriptors fd : forall steps evs rc open, Forall harmless steps -> carried_out fd steps evs rc -> 0 <= fd -> ~ In fd open ->
  (rc = fd /\ descriptors (fd :: open) evs = fd :: open) \/ (rc < 0 /\ descriptors (fd :: open) evs = open).
Proof.
  induction steps as [|c steps IH]; intros evs rc open Hh C Hf Hn; cbn in C.
  - destruct C as (-> & ->). left. split; reflexivity.
  - destruct evs as [|[c' an] evs]; [destruct C|]. destruct C as (-> & C).
    pose proof (Forall_inv Hh) as Hc. pose proof (Forall_inv_tail Hh) as Hh'.
    assert (D : descriptors (fd :: open) (@cons event (c, an) evs) = descriptors (fd :: open) evs) by (destruct c; cbn in Hc; try destruct Hc; reflexivity).
    rewrite D. destruct (an <? 0).
    + destruct C as (C & x & ->). right. split; [exact C|]. cbn. destruct (Z.eq_dec fd fd); [|congruence]. apply notin_remove, Hn.
    + apply (IH _ _ _ Hh' C Hf Hn).
Qed.

Lemma descriptors_app open a b : descriptors open (a ++ b) = descriptors (descriptors open a) b.
Proof. revert open. induction a as [|[c r] a IH]; intros open; [reflexivity|]. destruct c; apply IH. Qed.

Lemma made_descriptors k f d steps evs rc h r : fresh k -> (forall fd, Forall harmless (steps fd)) -> made (Socket f d) steps evs rc ->
  hd_error evs = Some r -> snd r = k h (Socket f d) ->
  (0 <= rc /\ ~ In rc (descriptors [] h) /\ descriptors [] (h ++ evs) = rc :: descriptors [] h) \/
  (rc < 0 /\ descriptors [] (h ++ evs) = descriptors [] h).
Proof.
  intros F S M0 Hr Hk. destruct evs as [|[c fd] evs]; [destruct M0|]. cbn in Hr. injection Hr as <-. cbn [snd] in Hk.
  cbn [made] in M0. destruct M0 as (-> & M0). rewrite descriptors_app. cbn [descriptors]. destruct (Z.ltb_spec fd 0) as [Q|Q].
  - destruct M0 as (-> & ->). right. split; [lia|reflexivity].
  - pose proof (F h f d) as F1. rewrite <- Hk in F1. specialize (F1 Q).
    destruct (carried_descriptors fd _ _ _ (descriptors [] h) (S fd) M0 Q F1) as [[-> E]|[E1 E2]]; [left|right]; auto.
Qed.

Lemma socket_first k f d (g : Z -> M Z) h rc evs : seq (libc k (Socket f d)) g h = (rc, evs) ->
  exists r, hd_error evs = Some r /\ snd r = k h (Socket f d).
Proof.
  unfold seq, libc, sys, seq, ret. cbn [app]. match goal with |- context [g ?x ?y] => destruct (g x y) as [b e2] end.
  intros E. injection E as _ <-. eexists. split; reflexivity.
Qed.

Lemma devices_spec i fd : on_device i fd (devices i fd).
Proof. destruct i as [i|]; [|reflexivity]. exists (device i). split; [apply device_spec|reflexivity]. Qed.

Lemma carried_ext fd : forall s t evs rc, s = t -> carried_out fd s evs rc -> carried_out fd t evs rc.
Proof. intros s t evs rc ->. auto. Qed.

Lemma made_ext c s t evs rc : (forall fd, s fd = t fd) -> made c s evs rc -> made c t evs rc.
Proof. intros E M0. destruct evs as [|[c' fd] evs]; [exact M0|]. cbn in *. rewrite <- E. exact M0. Qed.

Lemma limited_spec mx b : limited mx b = if b <? 0 then mx else Z.min mx b.
Proof. unfold limited. destruct (Z.ltb_spec mx b), (Z.ltb_spec b 0); lia. Qed.

(** A null path: the socket is made, the injector called, the socket closed. *)
Definition nulled (k : kernel) (f : family) (d : kind) (functionp : bool) (h evs : list event) (rc : Z) : Prop :=
  rc < 0 /\ (evs = [(Socket f d, k h (Socket f d))] /\ k h (Socket f d) < 0 \/
    exists cs x, 0 <= k h (Socket f d) /\ Forall harmless (map fst cs) /\
      evs = [(Socket f d, k h (Socket f d))] ++ cs ++ [(Close (k h (Socket f d)), x)]).

Lemma null_ok (k : kernel) f d functionp n h : (forall fd h, n fd (-1) h = (-1, [(Close fd, k h (Close fd))])) ->
  let '(rc, evs) := seq (libc k (Socket f d)) (fun fd => if fd <? 0 then ret fd else
    seq (inject k fd functionp) (fun rc => if rc <? 0 then seq (close_ k fd) (fun _ => ret rc) else seq (sourcel k fd None) (fun rc => n fd rc))) h in
  nulled k f d functionp h evs rc.
Proof.
  intros N. unfold seq at 1, libc, sys, seq at 1, ret at 1. cbn [app]. unfold nulled. set (r := k h (Socket f d)).
  destruct (Z.ltb_spec r 0) as [Q|Q].
  - cbn. split; [lia|]. left. auto.
  - destruct (Z.ltb_spec r 0); [lia|]. unfold inject. destruct functionp.
    + unfold seq at 1, sys. match goal with |- context [k ?x (Inject r)] => set (i := k x (Inject r)) end.
      destruct (Z.ltb_spec i 0) as [I|I].
      * cbn. split; [lia|]. right. eexists [(Inject r, i)], _. split; [exact Q|]. split; [repeat constructor|]. reflexivity.
      * unfold seq, sourcel, ret. rewrite N. cbn. split; [lia|]. right. eexists [(Inject r, i)], _. split; [exact Q|]. split; [repeat constructor|]. reflexivity.
    + unfold seq at 1, ret at 1. destruct (Z.ltb_spec r 0); [lia|]. unfold seq, sourcel, ret. rewrite N. cbn. split; [lia|].
      right. eexists [], _. split; [exact Q|]. split; [constructor|]. reflexivity.
Qed.

Lemma pl0 k mx kd b f h : let '(rc, evs) := ipcl_provider_base k mx kd None b f h in nulled k AF_UNIX kd f h evs rc.
Proof. apply (null_ok k AF_UNIX kd f (fun fd rc => if rc <? 0 then seq (close_ k fd) (fun _ => ret rc) else seq (libc k (Listen fd (limited mx b))) (fun rc => if rc <? 0 then seq (close_ k fd) (fun _ => ret rc) else ret fd)) h). intros. reflexivity. Qed.
Lemma cl0 k kd p f h : let '(rc, evs) := ipcl_consumer_base k kd p None f h in nulled k AF_UNIX kd f h evs rc.
Proof. apply (null_ok k AF_UNIX kd f (fun fd rc => if rc <? 0 then seq (close_ k fd) (fun _ => ret rc) else seq (libc k (Connect fd (Local (strncpy 108 p)))) (fun rc => if rc <? 0 then seq (close_ k fd) (fun _ => ret rc) else ret fd)) h). intros. reflexivity. Qed.
Lemma dl0 k f h : let '(rc, evs) := ipcl_datagram_peer_base k None f h in nulled k AF_UNIX SOCK_DGRAM f h evs rc.
Proof. apply (null_ok k AF_UNIX SOCK_DGRAM f (fun fd rc => if rc <? 0 then seq (close_ k fd) (fun _ => ret rc) else ret fd) h). intros. reflexivity. Qed.

Lemma harmless_descriptors : forall cs open, Forall harmless (map fst cs) -> descriptors open cs = open.
Proof.
  induction cs as [|[c r] cs IH]; intros open H; [reflexivity|]. cbn [map fst] in H. pose proof (Forall_inv H) as Hc.
  pose proof (Forall_inv_tail H) as Ht. destruct c; cbn in Hc; try destruct Hc; apply (IH open Ht).
Qed.

Lemma null_descriptors k f d fn evs rc h : fresh k -> nulled k f d fn h evs rc ->
  (0 <= rc /\ ~ In rc (descriptors [] h) /\ descriptors [] (h ++ evs) = rc :: descriptors [] h) \/
  (rc < 0 /\ descriptors [] (h ++ evs) = descriptors [] h).
Proof.
  intros F (Hr & N). right. split; [exact Hr|]. rewrite descriptors_app. pose proof (F h f d) as F1.
  set (r := k h (Socket f d)) in *. destruct N as [(-> & N)|(cs & x & N & Hc & ->)].
  - cbn [descriptors]. destruct (Z.ltb_spec r 0); [reflexivity|lia].
  - rewrite !descriptors_app. cbn [descriptors]. destruct (Z.ltb_spec r 0); [lia|].
    rewrite (harmless_descriptors cs) by exact Hc. cbn [remove]. destruct (Z.eq_dec r r); [|congruence]. apply notin_remove, F1, N.
Qed.

Lemma harmless_steps f i fd : Forall harmless (injected f fd) /\ Forall harmless (devices i fd).
Proof. split; [destruct f|destruct i]; repeat constructor. Qed.
Lemma harmless_locals p fd : Forall harmless (locals p fd).
Proof. destruct p; repeat constructor. Qed.

Ltac leak k T E :=
  destruct (socket_first k _ _ _ _ _ _ E) as (? & ? & ?);
  refine (made_descriptors k _ _ _ _ _ _ _ _ _ T _ _); [assumption| |eassumption|assumption];
  intros fd; rewrite ?Forall_app; repeat split; first [apply (harmless_steps _ None fd) | apply (harmless_steps true _ fd) | apply harmless_locals | repeat constructor].
