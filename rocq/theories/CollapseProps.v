(** The properties: escape sequences that are collapsed in place, and arguments that are
    collapsed and written. *)

From Coq Require Import ZArith List Bool Lia.
From Verif Require Import CUtil CInt EscapeModel EscapeSpec EscapeProofs CollapseModel CollapseSpec CollapseProofs.
Import ListNotations.
Local Open Scope Z_scope.

(** A buffer may be collapsed into itself: a text leaves its meaning, or as much of it as
    there is asked for, and a NUL at the start of the buffer, the rest of which is as it was,
    and their number is returned. *)
Theorem C95_in_place : forall s m r tsize, text s -> reads s m -> 1 <= tsize <= Z.of_nat (length (s ++ 0 :: r)) ->
  let out := firstn (Z.to_nat (tsize - 1)) m ++ [0] in
  in_place (length (s ++ 0 :: r)) (s ++ 0 :: r) 0 0 tsize = Some (out ++ skipn (length out) (s ++ 0 :: r), length out).
Proof. intros s m r tsize T R H out. apply in_place_all; [lia|]. apply collapse_spec; [exact T|exact R|lia]. Qed.
Print Assumptions C95_in_place.
(** From one buffer to another gives no more and no less. *)
Theorem C95_same : forall buf tsize out, tsize <= Z.of_nat (length buf) -> collapse buf tsize = Some out ->
  exists buf', in_place (length buf) buf 0 0 tsize = Some (buf', length out) /\ firstn (length out) buf' = out /\ skipn (length out) buf' = skipn (length out) buf.
Proof.
  intros buf tsize out L H. eexists. split; [apply in_place_all; [exact L|exact H]|]. split; [rewrite firstn_app, firstn_all, Nat.sub_diag; apply app_nil_r|rewrite skipn_app, skipn_all, Nat.sub_diag; reflexivity].
Qed.
Print Assumptions C95_same.
Example C95_in_place_example : text [92; 110; 97] /\ reads [92; 110; 97] [10; 97] /\ in_place 5 [92; 110; 97; 0; 7] 0 0 5 = Some ([10; 97; 0; 0; 7], 3%nat).
Proof.
  split; [intros H; cbn in H; lia|]. split; [|reflexivity]. apply (More _ [97] [10] [97]); [apply Letter; cbn; tauto|]. apply (More _ [] [97] []); [apply Plain; lia|constructor].
Qed.

(** The meanings of all of the arguments are written, one after another, but those that are
    empty or that start with a NUL; and the exit status is zero. *)
Theorem C95_arguments : forall args ms, Forall2 (fun s m => text s /\ reads s m) args ms -> collapse_main args [] = Some (concat (filter visible ms), 0).
Proof.
  induction 1 as [|s m args ms (T & R) _ IH]; [reflexivity|]. destruct s as [|c s].
  - apply reads_nil in R. subst m. cbn [collapse_main filter visible]. exact IH.
  - rewrite (main_step (c :: s) m args [] ltac:(discriminate) T R). cbn [filter]. destruct (visible m); cbn [negb]; [|exact IH]. cbv zeta. rewrite Nat.ltb_irrefl. cbn [tl]. rewrite IH. reflexivity.
Qed.
Print Assumptions C95_arguments.
(** What was expanded is written as it was. *)
Theorem C95_round_trip : forall special datas, special_safe (specials special) -> (forall y, In y (specials special) -> 32 <= y <= 126) ->
  Forall (fun l => octets l /\ nul_safe l /\ visible l = true) datas -> collapse_main (map (expansion special) datas) [] = Some (concat datas, 0).
Proof.
  intros special datas Sp P F. rewrite (C95_arguments _ datas).
  - f_equal. f_equal. f_equal. induction F as [|l datas (_ & _ & V) F IH]; [reflexivity|]. cbn [filter]. rewrite V, IH. reflexivity.
  - induction F as [|l datas (O & N & V) F IH]; [constructor|]. cbn [map]. constructor; [|exact IH]. split; [|apply expansion_reads; assumption].
    intros Z0. unfold expansion in Z0. apply in_flat_map in Z0. destruct Z0 as (c & I & Q). unfold octets in O. rewrite Forall_forall in O. pose proof (escape_printable _ _ _ (O c I) P Q). lia.
Qed.
Print Assumptions C95_round_trip.
(** A write that takes too little stops it, with one, and nothing after is written. *)
Theorem C95_short : forall args ms s m more n takes, Forall2 (fun s m => text s /\ reads s m) args ms -> text s -> reads s m -> visible m = true -> (n < length m)%nat ->
  length takes = length (filter visible ms) -> Forall2 (fun k m => (length m <= k)%nat) takes (filter visible ms) ->
  forall later, collapse_main (args ++ s :: more) (takes ++ n :: later) = Some (concat (filter visible ms) ++ firstn n m, 1).
Proof.
  intros args ms s m more n takes F T R V L LT FT later. revert takes LT FT. induction F as [|a x args ms (Ta & Ra) _ IH]; intros takes LT FT.
  - inversion FT; subst. cbn [app filter concat]. assert (N : s <> []) by (intros ->; apply reads_nil in R; subst m; discriminate).
    rewrite (main_step s m more _ N T R), V. cbn [negb]. cbv zeta. rewrite Nat.min_l by lia. destruct (Nat.ltb_spec n (length m)); [reflexivity|lia].
  - cbn [app]. destruct a as [|c a].
    + apply reads_nil in Ra. subst x. cbn [collapse_main filter visible]. apply IH; assumption.
    + rewrite (main_step (c :: a) x _ _ ltac:(discriminate) Ta Ra). cbn [filter] in *. destruct (visible x); cbn [negb]; [|apply IH; assumption].
      destruct takes as [|k takes]; [discriminate|]. inversion FT; subst. cbn [app tl]. cbv zeta. rewrite Nat.min_r by assumption. rewrite Nat.ltb_irrefl. cbn [length] in LT. rewrite IH; [|lia|assumption]. cbn [bind fst snd concat]. rewrite <- app_assoc. reflexivity.
Qed.
Print Assumptions C95_short.
(** "a\x41" and "\t" are written as "aA" and a tab. *)
Example C95_arguments_example : collapse_main [[97; 92; 120; 52; 49]; []; [92; 116]] [] = Some ([97; 65; 9], 0) /\ collapse_main [[97; 98]; [99]] [1%nat] = Some ([97], 1) /\
  Forall (fun l => octets l /\ nul_safe l /\ visible l = true) [[97; 10]] /\ special_safe (specials None).
Proof.
  split; [reflexivity|]. split; [reflexivity|]. split.
  - constructor; [|constructor]. split; [repeat (apply Forall_cons; [red; lia|]); apply Forall_nil|]. split; [|reflexivity]. intros a b c E. destruct a as [|? [|? [|? a]]]; discriminate E.
  - intros c [].
Qed.

(** But an argument whose meaning starts with a NUL is dropped, whatever comes after it. *)
Theorem C95_nul_refuted : forall s m, text s -> reads s (0 :: m) -> collapse_main [s] [] = Some ([], 0).
Proof. intros s m T R. rewrite (C95_arguments [s] [0 :: m]); [reflexivity|]. constructor; [split; assumption|constructor]. Qed.
Print Assumptions C95_nul_refuted.
Example C95_nul_example : text [92; 48; 97] /\ reads [92; 48; 97] [0; 97] /\ collapse_main [[92; 48; 97]] [] = Some ([], 0).
Proof.
  split; [intros H; cbn in H; lia|]. split; [|reflexivity]. apply (More [92; 48; 97] [97] [0] [97]); [|apply (More _ [] [97] []); [apply Plain; lia|constructor]].
  apply (Octal [48] [97]); [repeat constructor; unfold octal; lia|cbn; lia|right; cbn; unfold octal; lia].
Qed.
