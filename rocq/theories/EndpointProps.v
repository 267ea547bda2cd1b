(** Properties C35 and C51: endpoints. *)

From Coq Require Import ZArith List Bool Arith Lia Ascii String.
From Verif Require Import CInt CUtil IpModel IpSpec IpProofs EndpointModel EndpointSpec EndpointProofs EndpointProofs2 EndpointProofs3.
Import ListNotations.
Local Open Scope Z_scope.

(** The resolver of the examples is one. *)
Lemma resolver_example_ok : resolver_ok resolver_example.
Proof.
  unfold resolver_ok, resolver_example, ipv6_ok, is_u16, is_u32. cbn [resolve4 resolve6 resolve_port]. repeat split.
  all: repeat match goal with |- context [if ?x then _ else _] => destruct x end; cbn; try lia; try reflexivity.
  all: repeat constructor; cbn; try lia.
Qed.

(** C35: the parser ends, and the result is defined, for every string of any length and
    whatever the resolver says; unless a port is spelled that is no int. Reads and writes
    beyond the buffer, and running forever, would be [None]. *)
Theorem C35_total : forall le r global preference s, resolver_ok r -> c_string s ->
  (forall c, spells s c -> port_ok c) -> exists rc e, prefer le r global preference s = Some (rc, e) /\ rc <= 0.
Proof.
  intros le r global preference s R N P. destruct (Z_lt_le_dec (Z.of_nat (List.length s)) SIZE) as [L|L].
  - destruct (spelled_dec le r global preference s R N L) as [(c & S)|U].
    + destruct (prefer_spelled le r global preference s R N L c S (P c S)) as (A & B).
      destruct (meaningful_dec r c) as [M|M].
      * destruct (A M) as (e & E & _). exists 0, e. split; [exact E|lia].
      * destruct (B M) as (rc & e & E & K & _). exists rc, e. split; [exact E|lia].
    + exists (-1), blank. split; [apply prefer_unspelled; assumption|lia].
  - exists 0, blank. split; [apply prefer_long; assumption|lia].
Qed.
Print Assumptions C35_total.
Example C35_total_meets : c_string (text "[::1") /\ (forall c, spells (text "[::1") c -> port_ok c) /\ prefer true resolver_example false UNSPECIFIED (text "[::1") = Some (-1, blank).
Proof.
  assert (N : c_string (text "[::1")) by (cbn; intros I; repeat destruct I as [I|I]; discriminate || contradiction).
  split; [exact N|]. split; [|vm_compute; reflexivity].
  intros c S. apply scan_complete in S; [|exact N]. vm_compute in S. discriminate.
Qed.

(** C35: no string spells two things. *)
Theorem C35_unambiguous : forall s c d, c_string s -> spells s c -> spells s d -> c = d.
Proof. intros s c d N A B. apply scan_complete in A; [|exact N]. apply scan_complete in B; [|exact N]. congruence. Qed.
Print Assumptions C35_unambiguous.
Example C35_unambiguous_meets : spells (text "diag.com:http") (Parts None (Some (text "diag.com")) None None None (Some (text "http")) None).
Proof. apply scan_sound; [cbn; intros I; repeat destruct I as [I|I]; discriminate || contradiction|vm_compute; reflexivity]. Qed.

(** C35: what spells nothing is refused, and nothing is set. *)
Theorem C35_syntax : forall le r global preference s, resolver_ok r -> c_string s -> Z.of_nat (List.length s) < 4096 ->
  (forall c, ~ spells s c) -> prefer le r global preference s = Some (-1, blank).
Proof. intros le r global preference s R N L U. apply prefer_unspelled; assumption. Qed.
Print Assumptions C35_syntax.
Example C35_syntax_meets : forall c, ~ spells (text "1.2.3.4:80:69") c.
Proof.
  intros c S. apply scan_complete in S; [|cbn; intros I; repeat destruct I as [I|I]; discriminate || contradiction]. vm_compute in S. discriminate.
Qed.

(** C35: what is spelled, and means something, is accepted; and exactly that is set. *)
Theorem C35_accepts : forall le r global preference s c, resolver_ok r -> c_string s -> Z.of_nat (List.length s) < 4096 ->
  spells s c -> port_ok c -> meaningful r c ->
  exists e, prefer le r global preference s = Some (0, e) /\ means le r global preference c e.
Proof. intros le r global preference s c R N L S P M. exact (proj1 (prefer_spelled le r global preference s R N L c S P) M). Qed.
Print Assumptions C35_accepts.
Example C35_accepts_meets :
  exists c, spells (text "diag.com:http") c /\ port_ok c /\ meaningful resolver_example c /\
  prefer true resolver_example false UNSPECIFIED (text "diag.com:http") = Some (0, Endpoint IPV4 16909060 [8193; 0; 0; 0; 0; 0; 0; 1] 80 80 []) /\
  prefer true resolver_example true UNSPECIFIED (text "diag.com:http") = Some (0, Endpoint IPV6 16909060 [8193; 0; 0; 0; 0; 0; 0; 1] 80 80 []).
Proof.
  eexists. split; [exact C35_unambiguous_meets|]. split; [intros w; discriminate|]. split; [|split; vm_compute; reflexivity].
  unfold meaningful, unresolved, means4, means6, hosted. cbn [EndpointModel.name fqdn ipv4 EndpointModel.ipv6 port service path].
  split; [intros _ (A & _); revert A; vm_compute; discriminate|]. split; [congruence|]. split; [intros x [= <-]; left; vm_compute; discriminate|congruence].
Qed.
(** More of what is spelled, from the header (include/com/diag/diminuto/diminuto_ipc.h:652-673). *)
Example C35_accepts_header :
  map (prefer true resolver_example false UNSPECIFIED) [text "80"; text ":80"; text ":http"; text "localhost"; text "localhost:80"; text "http"; text "1.2.3.4:tftp"; text "[::1]:80"; text "[::]"; text "0.0.0.0"; text "0"; text ""; text "./sock"]
  = map (fun e => Some (0, e))
    [Endpoint IPV4 0 UNSPECIFIED6 80 80 []; Endpoint IPV4 0 UNSPECIFIED6 80 80 []; Endpoint IPV4 0 UNSPECIFIED6 80 80 []; Endpoint IPV4 2130706433 UNSPECIFIED6 0 0 [];
     Endpoint IPV4 2130706433 UNSPECIFIED6 80 80 []; Endpoint IPV4 0 UNSPECIFIED6 80 80 []; Endpoint IPV4 16909060 UNSPECIFIED6 0 69 []; Endpoint IPV6 0 LOOPBACK6 80 80 [];
     Endpoint IPV6 0 UNSPECIFIED6 0 0 []; Endpoint IPV4 0 UNSPECIFIED6 0 0 []; Endpoint IPV4 0 UNSPECIFIED6 0 0 []; Endpoint LOCAL 0 UNSPECIFIED6 0 0 []; Endpoint LOCAL 0 UNSPECIFIED6 0 0 (text "/home/sock")].
Proof. vm_compute. reflexivity. Qed.

(** C35: what is spelled, but means nothing, is refused. *)
Theorem C35_rejects : forall le r global preference s c, resolver_ok r -> c_string s -> Z.of_nat (List.length s) < 4096 ->
  spells s c -> port_ok c -> ~ meaningful r c ->
  exists rc e, prefer le r global preference s = Some (rc, e) /\ rc < 0 /\ type e = UNSPECIFIED.
Proof. intros le r global preference s c R N L S P M. exact (proj2 (prefer_spelled le r global preference s R N L c S P) M). Qed.
Print Assumptions C35_rejects.
Example C35_rejects_meets :
  exists c, spells (text "no.such:http") c /\ port_ok c /\ ~ meaningful resolver_example c /\
  prefer true resolver_example false UNSPECIFIED (text "no.such:http") = Some (-2, Endpoint UNSPECIFIED 0 UNSPECIFIED6 80 80 []).
Proof.
  exists (Parts None (Some (text "no.such")) None None None (Some (text "http")) None).
  split; [apply scan_sound; [cbn; intros I; repeat destruct I as [I|I]; discriminate || contradiction|vm_compute; reflexivity]|].
  split; [intros w; discriminate|]. split; [|vm_compute; reflexivity].
  intros (M & _). apply (M ltac:(discriminate)). split; vm_compute; reflexivity.
Qed.

(** C35: there is one meaning only, so that what is set is determined. *)
Theorem C35_determined : forall le r global preference c e f, means le r global preference c e -> means le r global preference c f -> e = f.
Proof. intros le r global preference c e f. apply means_determined. Qed.
Print Assumptions C35_determined.
Example C35_determined_meets : means true resolver_example false IPV6 (Parts None (Some (text "diag.com")) None None None None None) (Endpoint IPV6 16909060 [8193; 0; 0; 0; 0; 0; 0; 1] 0 0 []).
Proof. vm_compute. repeat split. Qed.

(** C35, where it fails. A string that does not fit the buffer is neither parsed nor refused:
    success is reported, and nothing is set (src/diminuto_ipc_endpoint.c:128-129 and 597). *)
Theorem C35_long_refuted : forall le r global preference s, c_string s -> 4096 <= Z.of_nat (List.length s) ->
  prefer le r global preference s = Some (0, blank).
Proof. intros le r global preference s N L. apply prefer_long; assumption. Qed.
Print Assumptions C35_long_refuted.
Example C35_long_refuted_meets : c_string long_path /\ Z.of_nat (List.length long_path) = 4096.
Proof.
  split; [|unfold long_path; rewrite repeat_length; unfold SIZE; lia]. unfold c_string, long_path. intros I. apply repeat_spec in I. discriminate.
Qed.

(** C35, where it fails. Ports that are no int are undefined (atoi(3), line 478). *)
Theorem C35_port_undefined_refuted : forall le r global preference s c, resolver_ok r -> c_string s -> Z.of_nat (List.length s) < 4096 ->
  spells s c -> ~ port_ok c -> prefer le r global preference s = None.
Proof. intros le r global preference s c R N L S P. apply (prefer_undefined le r global preference s R N L c S P). Qed.
Print Assumptions C35_port_undefined_refuted.
Example C35_port_undefined_refuted_meets : exists c, spells (text "2147483648") c /\ ~ port_ok c.
Proof.
  eexists. split; [apply scan_sound; [cbn; intros I; repeat destruct I as [I|I]; discriminate || contradiction|vm_compute; reflexivity]|].
  intros P. specialize (P _ eq_refl). revert P. vm_compute. intros P. apply P. reflexivity.
Qed.

(** C35, where it fails. Other ports that are no port are accepted, as another port. *)
Theorem C35_port_wraps_refuted : forall le r global preference w, resolver_ok r -> numeric w -> Z.of_nat (List.length w) < 4096 -> value w <= 2147483647 ->
  exists e, prefer le r global preference w = Some (0, e) /\ tcp e = value w mod 65536 /\ udp e = value w mod 65536.
Proof.
  intros le r global preference w R N L V.
  assert (S : spells w (Parts None None None None (Some w) None None)) by (apply Sp_port; exact N).
  destruct (C35_accepts le r global preference w _ R (digits_string w (proj2 N)) L S) as (e & E & (_ & _ & T & U & _)).
  - intros x [= <-]. exact V.
  - unfold meaningful. cbn. repeat split; congruence.
  - exists e. split; [exact E|]. split; [exact T|exact U].
Qed.
Print Assumptions C35_port_wraps_refuted.
Example C35_port_wraps_refuted_meets : prefer true resolver_example false UNSPECIFIED (text "65616") = prefer true resolver_example false UNSPECIFIED (text "80").
Proof. vm_compute. reflexivity. Qed.

(** C35, where it fails. An address that is none is accepted, as any address. *)
Theorem C35_bad_address_refuted : forall le r global preference w, resolver_ok r -> dotted w -> Z.of_nat (List.length w) < 4096 ->
  resolve4 r w = 0 -> prefer le r global preference w = Some (0, Endpoint IPV4 0 UNSPECIFIED6 0 0 []).
Proof.
  intros le r global preference w R D L Z0.
  assert (S : spells w (Parts None None (Some w) None None None None)) by (rewrite <- (app_nil_r w) at 1; apply Sp_ipv4; [exact D|constructor]).
  apply (round_trip le r printer_example R w _ _ global preference (dotted_string w D) L S); [intros x; discriminate|unfold meaningful; cbn; repeat split; congruence|].
  unfold means, means4, means6, means_type, means4, means6. cbn. rewrite Z0. repeat split.
Qed.
Print Assumptions C35_bad_address_refuted.
Example C35_bad_address_refuted_meets : dotted (text "999.1") /\ prefer true resolver_example false UNSPECIFIED (text "999.1") = prefer true resolver_example false UNSPECIFIED (text "0.0.0.0").
Proof. split; [|vm_compute; reflexivity]. exists (text "999"), (text "1"). split; [reflexivity|]. split; [split; [discriminate|]|]; repeat constructor; vm_compute; discriminate. Qed.

(** C35, where it fails. A string may begin with what is not allowed in it: that is skipped. *)
Theorem C35_prefix_refuted : forall le r global preference x s, skipped x -> c_string (x :: s) -> resolver_ok r -> Z.of_nat (List.length (x :: s)) < 4096 ->
  prefer le r global preference (x :: s) = prefer le r global preference s.
Proof.
  intros le r global preference x s K N R L.
  assert (N' : c_string s) by (intros I; apply N; right; exact I).
  assert (L' : Z.of_nat (List.length s) < 4096) by (cbn [List.length] in L; lia).
  rewrite !prefer_scan by assumption.
  destruct (scan S_START [] nothing s) as [d|] eqn:E.
  - rewrite (scan_complete (x :: s) d); [reflexivity| |exact N]. apply Sp_skip; [exact K|apply scan_sound; assumption].
  - destruct (scan S_START [] nothing (x :: s)) as [d|] eqn:E'; [|reflexivity]. exfalso. revert E'. cbn [scan].
    destruct (a_turn S_START [] nothing x) as [((s' & w) & c)|o] eqn:A.
    + revert A. destruct K as (K1 & K2 & K3 & K4 & K5). cbn [a_turn].
      assert (D : is_digit x = false) by (apply digit_false; intros D; apply K1; left; exact D).
      assert (T : is_letter x = false) by (apply letter_false; intros H; apply K1; right; exact H).
      rewrite D, T. repeat (match goal with |- context [x =? ?k] => destruct (Z.eqb_spec x k) as [Q|_] end); try congruence; try (exfalso; apply N; left; exact Q).
      all: intros [= <- <- <-]; rewrite E; discriminate.
    + revert A. destruct K as (K1 & K2 & K3 & K4 & K5). cbn [a_turn].
      assert (D : is_digit x = false) by (apply digit_false; intros D; apply K1; left; exact D).
      assert (T : is_letter x = false) by (apply letter_false; intros H; apply K1; right; exact H).
      rewrite D, T. repeat (match goal with |- context [x =? ?k] => destruct (Z.eqb_spec x k) as [Q|_] end); try congruence; try (exfalso; apply N; left; exact Q).
      all: intros [=].
Qed.
Print Assumptions C35_prefix_refuted.
Example C35_prefix_refuted_meets : skipped 37 /\ prefer true resolver_example false UNSPECIFIED (text "%%]80") = Some (0, Endpoint IPV4 0 UNSPECIFIED6 80 80 []).
Proof. split; [unfold skipped, alphanumeric, digit, letter, COLON, OPENS, SLASH, PERIOD; lia|vm_compute; reflexivity]. Qed.

(** C35, where it fails. Of both addresses, neither in the form of the other, the type is not
    that of the sixth version, as is documented (diminuto_ipc.h:600-602), unless it is asked for. *)
Theorem C35_type_refuted : exists r h, resolver_ok r /\ is_v4mapped true (resolve6 r h) = false /\ resolve6 r h <> UNSPECIFIED6 /\
  option_map (fun x => type (snd x)) (prefer true r false UNSPECIFIED h) = Some IPV4.
Proof. exists resolver_example, (text "diag.com"). split; [exact resolver_example_ok|]. vm_compute. split; [reflexivity|]. split; [discriminate|reflexivity]. Qed.
Print Assumptions C35_type_refuted.

(** C51: printing never writes beyond the buffer, and always something, if there is room. *)
Theorem C51_bounded : forall le r q e length_, 0 < length_ -> exists s, endpoint2string le r q e length_ = Some s /\ Z.of_nat (List.length s) < length_.
Proof.
  intros le r q e n L. unfold endpoint2string. destruct (Z.leb_spec n 0); [lia|].
  assert (F : forall l : list Z, Z.of_nat (List.length (firstn (Z.to_nat (n - 1)) l)) < n) by (intros l; pose proof (firstn_le_length (Z.to_nat (n - 1)) l); lia).
  destruct (type e); try (eexists; split; [reflexivity|]; cbn zeta; try apply F; cbn [List.length]; lia).
  unfold path2string. destruct (Z.eqb_spec n 0); [lia|]. destruct (Z.eqb_spec n 1); [eexists; split; [reflexivity|cbn [List.length]; lia]|].
  destruct (local e); [eexists; split; [reflexivity|cbn [List.length]; lia]|].
  destruct (resolve_path r _) as [x|]; [|eexists; split; [reflexivity|cbn [List.length]; lia]].
  rewrite Z.geb_leb. destruct (Z.leb_spec n (Z.of_nat (List.length x))); eexists; split; try reflexivity; cbn [List.length]; lia.
Qed.
Print Assumptions C51_bounded.
Example C51_bounded_meets : endpoint2string true resolver_example printer_example (Endpoint IPV4 16909060 UNSPECIFIED6 80 69 []) 9 = Some (text "1.2.3.4:").
Proof. vm_compute. reflexivity. Qed.

(** C51: in a smaller buffer is the beginning of what would be in a larger one. *)
Theorem C51_truncates : forall le r q e m n s t, type e <> LOCAL -> m <= n -> endpoint2string le r q e m = Some s -> endpoint2string le r q e n = Some t ->
  s = firstn (Z.to_nat (m - 1)) t.
Proof.
  intros le r q e m n s t T L. unfold endpoint2string. destruct (Z.leb_spec m 0); [discriminate|]. destruct (Z.leb_spec n 0); [discriminate|]. cbv zeta.
  destruct (type e); try contradiction; intros [= <-] [= <-]; rewrite ?firstn_firstn, ?firstn_nil; try reflexivity; f_equal; lia.
Qed.
Print Assumptions C51_truncates.
Example C51_truncates_meets : endpoint2string true resolver_example printer_example (Endpoint IPV6 0 LOOPBACK6 80 80 []) 4 = Some (text "[::") /\
  endpoint2string true resolver_example printer_example (Endpoint IPV6 0 LOOPBACK6 80 80 []) 40 = Some (text "[::1]:80").
Proof. vm_compute. split; reflexivity. Qed.

(** C51: what is printed for an endpoint of one address, and one port or none, is parsed as
    that endpoint, whatever is preferred. *)
Theorem C51_round_trip4 : forall le r q a n length_, resolver_ok r -> a <> 0 -> is_u16 n -> prints4 r q a -> prints_port q n -> 64 <= length_ ->
  exists s, endpoint2string le r q (Endpoint IPV4 a UNSPECIFIED6 n n []) length_ = Some s /\
    forall global preference, prefer le r global preference s = Some (0, Endpoint IPV4 a UNSPECIFIED6 n n []).
Proof. intros le r q a n length_ R. apply round4. exact R. Qed.
Print Assumptions C51_round_trip4.
Example C51_round_trip4_meets : prints4 resolver_example printer_example 16909060 /\ prints_port printer_example 80 /\
  endpoint2string true resolver_example printer_example (Endpoint IPV4 16909060 UNSPECIFIED6 80 80 []) 64 = Some (text "1.2.3.4:80").
Proof.
  split; [|split; [|vm_compute; reflexivity]].
  - split; [exists (text "1"), (text "2.3.4"); split; [reflexivity|]; split; [split; [discriminate|]|]; repeat (first [constructor; vm_compute; split; discriminate|apply Forall_cons; [first [left; vm_compute; split; discriminate|right; reflexivity]|]|apply Forall_cons; [vm_compute; split; discriminate|]|apply Forall_nil])|].
    split; [reflexivity|vm_compute; lia].
  - split; [split; [discriminate|]; repeat (first [apply Forall_cons; [vm_compute; split; discriminate|]|apply Forall_nil])|]. split; [reflexivity|vm_compute; lia].
Qed.
Theorem C51_round_trip6 : forall le r q a n length_, resolver_ok r -> a <> UNSPECIFIED6 -> is_u16 n -> prints6 r q a -> prints_port q n -> 64 <= length_ ->
  exists s, endpoint2string le r q (Endpoint IPV6 0 a n n []) length_ = Some s /\
    forall global preference, prefer le r global preference s = Some (0, Endpoint IPV6 0 a n n []).
Proof. intros le r q a n length_ R. apply round6. exact R. Qed.
Print Assumptions C51_round_trip6.
Example C51_round_trip6_meets : prints6 resolver_example printer_example LOOPBACK6 /\
  endpoint2string true resolver_example printer_example (Endpoint IPV6 0 LOOPBACK6 0 0 []) 64 = Some (text "[::1]").
Proof.
  split; [|vm_compute; reflexivity]. split; [|split; [reflexivity|vm_compute; lia]].
  repeat (apply Forall_cons; [first [left; vm_compute; split; discriminate|right; right; right; left; reflexivity]|]). apply Forall_nil.
Qed.
Theorem C51_round_trip_local : forall le r q l length_, resolver_ok r -> c_string l -> Z.of_nat (List.length l) < 4096 -> (l = [] \/ exists t, l = SLASH :: t) ->
  resolve_path r l = Some l -> Z.of_nat (List.length l) < length_ ->
  exists s, endpoint2string le r q (Endpoint LOCAL 0 UNSPECIFIED6 0 0 l) length_ = Some s /\
    forall global preference, prefer le r global preference s = Some (0, Endpoint LOCAL 0 UNSPECIFIED6 0 0 l).
Proof. intros le r q l length_ R. apply round_local. exact R. Qed.
Print Assumptions C51_round_trip_local.
Example C51_round_trip_local_meets : exists r, resolver_ok r /\ resolve_path r (text "/home/sock") = Some (text "/home/sock") /\
  prefer true r false UNSPECIFIED (text "/home/sock") = Some (0, Endpoint LOCAL 0 UNSPECIFIED6 0 0 (text "/home/sock")).
Proof.
  exists (Resolver (resolve4 resolver_example) (resolve6 resolver_example) (resolve_port resolver_example) (fun s => Some s)).
  split; [exact resolver_example_ok|]. vm_compute. split; reflexivity.
Qed.

(** C51, where it fails: two ports, two addresses, and no address with no port. *)
Theorem C51_round_trip_refuted : 
  (endpoint2string true resolver_example printer_example (Endpoint IPV4 16909060 UNSPECIFIED6 80 69 []) 64 = Some (text "1.2.3.4:80:69") /\
   prefer true resolver_example false UNSPECIFIED (text "1.2.3.4:80:69") = Some (-1, blank)) /\
  (endpoint2string true resolver_example printer_example (Endpoint IPV6 16909060 LOOPBACK6 0 0 []) 64 = Some (text "[::1],1.2.3.4") /\
   prefer true resolver_example false UNSPECIFIED (text "[::1],1.2.3.4") = Some (-1, blank)) /\
  (prefer true resolver_example false UNSPECIFIED (text "0.0.0.0") = Some (0, Endpoint IPV4 0 UNSPECIFIED6 0 0 []) /\
   endpoint2string true resolver_example printer_example (Endpoint IPV4 0 UNSPECIFIED6 0 0 []) 64 = Some [] /\
   prefer true resolver_example false UNSPECIFIED [] = Some (0, Endpoint LOCAL 0 UNSPECIFIED6 0 0 [])).
Proof. vm_compute. repeat split. Qed.
Print Assumptions C51_round_trip_refuted.
