(** Property C77. *)

From Coq Require Import ZArith List Bool Lia.
From Verif Require Import CInt CUtil NumberModel NumberSpec NumberProofs NumberProps LineModel LineSpec LineProofs.
Import ListNotations.
Local Open Scope Z_scope.

(** The line found by its name is the first of that name of the first device that has
    one; and every device that was opened is closed. *)
Theorem C77_find : forall wanted prefix nodes size,
  Forall (fun n => forall m, lines n = Some m -> is_u32 m) nodes ->
  match find wanted prefix nodes size with
  | (Some (p, k), calls) => exists before n after, nodes = before ++ n :: after /\
      p = firstn (Z.to_nat (size - 1)) (firstn 4095 (path n)) /\ has wanted prefix n k /\
      Forall (fun n' => forall k', ~ has wanted prefix n' k') before /\ uses prefix (before ++ [n]) calls
  | (None, calls) => Forall (fun n => forall k, ~ has wanted prefix n k) nodes /\ uses prefix nodes calls
  end.
Proof.
  intros wanted prefix nodes size F.
  assert (W : forall n, match walker wanted prefix n with
    | (Some (p, k), calls) => p = firstn 4095 (path n) /\ has wanted prefix n k /\ uses prefix [n] calls
    | (None, calls) => (forall k, ~ has wanted prefix n k) /\ uses prefix [n] calls end).
  { intros n. unfold walker. destruct (chardev n) eqn:C; cbn [negb]; [|split; [intros k ((Q & _) & _); congruence|apply uses_skip; [intros (Q & _); congruence|constructor]]].
    destruct (prefixed prefix (name n)) eqn:P; cbn [negb].
    2:{ assert (NC : ~ candidate prefix n) by (intros (_ & Q); apply prefixed_iff in Q; congruence). split; [intros k (Q & _); exact (NC Q)|]. apply uses_skip; [exact NC|constructor]. }
    assert (CC : candidate prefix n) by (split; [exact C|apply prefixed_iff, P]).
    destruct (Z.ltb_spec (opened n) 0) as [O|O]; [split; [intros k (_ & Q & _); lia|apply uses_fail; [exact CC|exact O|constructor]]|].
    assert (U : uses prefix [n] [Open (path n); Close (opened n)]) by (apply uses_open; [exact CC|exact O|constructor]).
    destruct (lines n) as [m|] eqn:L; [|split; [intros k (_ & _ & _ & m & Q & _); congruence|exact U]].
    destruct (scan (Z.to_nat m) 0 (line n) wanted) as [k|] eqn:S.
    - split; [reflexivity|]. split; [|exact U]. apply scan_some in S. destruct S as (R & A & N & J). split; [exact CC|]. split; [exact O|]. split; [exact N|].
      exists m. split; [exact L|]. split; [lia|]. split; [exact A|exact J].
    - split; [|exact U]. intros k (_ & _ & N & m' & Q & R & A & J). rewrite L in Q. injection Q as <-.
      rewrite (scan_first (Z.to_nat m) 0 (line n) wanted k ltac:(lia) A N J) in S. discriminate S. }
  assert (UA : forall a b c d, uses prefix a c -> uses prefix b d -> uses prefix (a ++ b) (c ++ d)).
  { intros a b c d UA UB. induction UA; cbn [app]; [exact UB|apply uses_skip|apply uses_fail|apply uses_open]; assumption. }
  assert (V : match visits wanted prefix nodes with
    | (Some (p, k), calls) => exists before n after, nodes = before ++ n :: after /\ p = firstn 4095 (path n) /\ has wanted prefix n k /\
        Forall (fun n' => forall k', ~ has wanted prefix n' k') before /\ uses prefix (before ++ [n]) calls
    | (None, calls) => Forall (fun n => forall k, ~ has wanted prefix n k) nodes /\ uses prefix nodes calls end).
  { clear F. induction nodes as [|n nodes IH]; cbn [visits]; [split; constructor|]. specialize (W n). destruct (walker wanted prefix n) as [[(p & k)|] calls].
    - destruct W as (E & H & U). exists [], n, nodes. split; [reflexivity|]. split; [exact E|]. split; [exact H|]. split; [constructor|exact U].
    - destruct W as (N & U). destruct (visits wanted prefix nodes) as [[(p & k)|] more].
      + destruct IH as (before & n' & after & -> & E & H & B & U'). exists (n :: before), n', after. split; [reflexivity|]. split; [exact E|]. split; [exact H|].
        split; [constructor; assumption|]. exact (UA [n] (before ++ [n']) calls more U U').
      + destruct IH as (B & U'). split; [constructor; assumption|]. exact (UA [n] nodes calls more U U'). }
  unfold find. destruct (visits wanted prefix nodes) as [[(p & k)|] calls]; [|exact V]. destruct V as (before & n & after & E & P & H & B & U).
  assert (K : u32 k = k).
  { destruct H as (_ & _ & _ & m & L & R & _). rewrite Forall_forall in F. specialize (F n). assert (I : In n nodes) by (rewrite E; apply in_elt). specialize (F I m L). unfold is_u32 in F. unfold u32. apply Z.mod_small. lia. }
  rewrite K, P. exists before, n, after. split; [exact E|]. split; [reflexivity|]. split; [exact H|]. split; [exact B|exact U].
Qed.
Print Assumptions C77_find.

(** A path with an offset is understood, with or without a sign. *)
Theorem C77_path : forall canonical found path pre inverted digits n, begins path -> signed pre inverted -> number digits n ->
  parse canonical found (path ++ [58] ++ pre ++ digits) = match canonical path with Some p => Some (p, n, inverted) | None => None end.
Proof.
  intros canonical found path pre inverted digits n B S N. unfold parse.
  assert (B' : begins (path ++ [58] ++ pre ++ digits)) by (destruct B as (t & [E|[E|E]]); rewrite E; exists (t ++ [58] ++ pre ++ digits); rewrite <- app_assoc; tauto).
  apply begins_iff in B'. rewrite B'. destruct (body_digits digits n (proj1 N)) as (NE & FD). rewrite Forall_forall in FD.
  cbn [app]. rewrite strrchr_last.
  2:{ intros I. apply in_app_or in I. destruct I as [I|I]; [destruct S; cbn in I; lia|]. specialize (FD 58 I). lia. }
  rewrite (sign_signed pre inverted digits S).
  2:{ intros _ t. split; intros ->; [specialize (FD 43 (or_introl eq_refl))|specialize (FD 45 (or_introl eq_refl))]; lia. }
  destruct digits as [|c d]; [congruence|]. rewrite (number_value _ n N). destruct N as (_ & N). destruct (Z.ltb_spec 4294967295 n); [lia|]. reflexivity.
Qed.
Print Assumptions C77_path.

(** Anything that is not such a path, or has no colon, is a name. *)
Theorem C77_name : forall canonical found name pre inverted, signed pre inverted ->
  (begins (pre ++ name) -> ~ In 58 (pre ++ name)) -> (pre = [] -> forall t, name <> 43 :: t /\ name <> 45 :: t) ->
  parse canonical found (pre ++ name) = match found name with Some (p, k) => Some (p, k, inverted) | None => None end.
Proof.
  intros canonical found name pre inverted S B N. unfold parse.
  replace (if prefixed [47] (pre ++ name) || prefixed [46; 47] (pre ++ name) || prefixed [46; 46; 47] (pre ++ name) then strrchr 58 (pre ++ name) else None) with (@None (list Z * list Z)).
  2:{ destruct (prefixed [47] (pre ++ name) || prefixed [46; 47] (pre ++ name) || prefixed [46; 46; 47] (pre ++ name)) eqn:E; [|reflexivity]. symmetry. apply strrchr_none, B, begins_iff, E. }
  rewrite (sign_signed pre inverted name S N). unfold bind. destruct (found name) as [(p & k)|]; reflexivity.
Qed.
Print Assumptions C77_name.

(** Nothing else is understood: an offset that is understood is a number modulo 2^64. *)
Theorem C77_only : forall canonical found parameter p k inverted, parse canonical found parameter = Some (p, k, inverted) ->
  exists pre rest, signed pre inverted /\
    ((exists path n, parameter = path ++ [58] ++ pre ++ rest /\ canonical path = Some p /\ numeral rest n /\ k = n mod 2 ^ 64 /\ k < 2 ^ 32) \/
     (parameter = pre ++ rest /\ found rest = Some (p, k))).
Proof.
  intros canonical found parameter p k inverted E. unfold parse in E.
  destruct (if prefixed [47] parameter || prefixed [46; 47] parameter || prefixed [46; 46; 47] parameter then strrchr 58 parameter else None) as [(path & offset)|] eqn:R.
  - destruct (prefixed [47] parameter || prefixed [46; 47] parameter || prefixed [46; 46; 47] parameter); [|discriminate R]. apply strrchr_some in R. destruct R as (-> & NC).
    destruct (sign offset) as (i & s) eqn:S. destruct (sign_some _ _ _ S) as (pre & SP & -> & _). destruct s as [|c s]; [discriminate E|].
    destruct (number_unsigned (c :: s)) as (value, rest) eqn:V. destruct rest as [|]; [|discriminate E]. destruct (Z.ltb_spec 4294967295 value) as [L|L]; [discriminate E|].
    destruct (canonical path) as [q|] eqn:C; [|discriminate E]. cbn [bind] in E. injection E as -> -> ->.
    exists pre, (c :: s). split; [exact SP|]. left. exists path.
    destruct (C60_only (c :: s)) as [(_ & Q)|(a & rest & n & ES & NA & NU & _ & RU & _ & VU)]; [rewrite Q in V; discriminate V|].
    rewrite V in RU, VU. cbn [fst snd] in RU, VU. subst rest. rewrite app_nil_r in ES. subst a. exists n.
    split; [reflexivity|]. split; [exact C|]. split; [exact NU|]. destruct (Z.ltb_spec (Z.abs n) (2 ^ 64)) as [A|A]; [|lia]. split; [exact VU|lia].
  - destruct (sign parameter) as (i & s) eqn:S. destruct (sign_some _ _ _ S) as (pre & SP & -> & _). destruct (found s) as [(q & j)|] eqn:F; [|discriminate E]. cbn [bind] in E. injection E as -> -> ->.
    exists pre, s. split; [exact SP|]. right. split; [reflexivity|exact F].
Qed.
Print Assumptions C77_only.

(** So there may be another sign, and a number that is negative. *)
Theorem C77_negative_refuted : forall canonical found p, canonical [47; 100] = Some p ->
  parse canonical found ([47; 100; 58; 45; 45] ++ dec 18446744073709551615) = Some (p, 1, true).
Proof.
  intros canonical found p C. unfold parse.
  change (if prefixed [47] ([47; 100; 58; 45; 45] ++ dec 18446744073709551615) || prefixed [46; 47] ([47; 100; 58; 45; 45] ++ dec 18446744073709551615) || prefixed [46; 46; 47] ([47; 100; 58; 45; 45] ++ dec 18446744073709551615)
    then strrchr 58 ([47; 100; 58; 45; 45] ++ dec 18446744073709551615) else None) with (strrchr 58 ([47; 100] ++ 58 :: 45 :: 45 :: dec 18446744073709551615)).
  rewrite strrchr_last by (vm_compute; intuition discriminate). change (sign (45 :: 45 :: dec 18446744073709551615)) with (true, 45 :: dec 18446744073709551615).
  replace (number_unsigned (45 :: dec 18446744073709551615)) with (1, @nil Z) by (vm_compute; reflexivity). cbv beta iota. rewrite C. reflexivity.
Qed.
Print Assumptions C77_negative_refuted.

(** Opening asks for just these lines, all of them debounced if any is; and the device is
    closed just once. Whatever cannot be asked for is refused and nothing is opened. *)
Theorem C77_open : forall fd answer consumer path line lines flags useconds, 0 <= useconds -> lines = Z.of_nat (length line) ->
  if (0 <? lines) && (lines <? 64) && forallb (fun x => x <? 64) line
  then exists debounce, open_generic fd answer consumer path line lines flags useconds =
      (if fd <? 0 then (-1, [Open path])
       else (match answer with Some r => r | None => -1 end, [Open path; Request fd line flags debounce (firstn 31 consumer); Close fd])) /\
    match debounce with
    | None => useconds = 0
    | Some (mask, period) => 0 < useconds /\ period = useconds /\ forall i, 0 <= i -> Z.testbit mask i = (i <? lines)
    end
  else open_generic fd answer consumer path line lines flags useconds = (-1, []).
Proof.
  intros fd answer consumer path line lines flags useconds U L. unfold open_generic. destruct ((0 <? lines) && (lines <? 64)) eqn:R; cbn [negb andb]; [|reflexivity].
  apply andb_true_iff in R. destruct R as (R1 & R2). apply Z.ltb_lt in R1, R2. destruct (forallb (fun x => x <? 64) line) eqn:A.
  - assert (AL : Forall (fun x => x < 64) line) by (apply Forall_forall; intros x I; rewrite forallb_forall in A; apply Z.ltb_lt, A, I).
    rewrite offsets_all by exact AL. rewrite <- L, Z.eqb_refl. cbn [negb]. eexists. split; [destruct (fd <? 0); [reflexivity|]; destruct answer; reflexivity|].
    destruct (Z.ltb_spec 0 useconds) as [P|P]; [|lia]. split; [exact P|]. split; [reflexivity|]. intros i I. rewrite debounced_bits by lia. rewrite Z.testbit_0_l. cbn [orb].
    destruct (Z.leb_spec 0 i); [|lia]. cbn [andb]. rewrite Z2Nat.id by lia. reflexivity.
  - destruct (Z.eqb_spec (Z.of_nat (length (offsets line))) lines) as [E|E]; cbn [negb]; [|reflexivity]. exfalso. assert (AL : Forall (fun x => x < 64) line) by (apply offsets_some; lia).
    assert (T : forallb (fun x => x <? 64) line = true) by (apply forallb_forall; intros x I; rewrite Forall_forall in AL; apply Z.ltb_lt, AL, I). congruence.
Qed.
Print Assumptions C77_open.

(** Sixty-four lines are refused, although there is room for them in a request. *)
Theorem C77_lines_refuted : forall fd answer consumer path line flags useconds, length line = 64%nat ->
  open_generic fd answer consumer path line 64 flags useconds = (-1, []).
Proof. reflexivity. Qed.
Print Assumptions C77_lines_refuted.

(** A line that was closed is closed once, and not again by closing the result. *)
Theorem C77_close : forall ok fd, 0 <= fd -> snd (close ok fd) = [Close fd] /\
  (ok = true -> forall ok', close ok' (fst (close ok fd)) = (-1, [])) /\ (ok = false -> fst (close ok fd) = fd).
Proof.
  intros ok fd F. unfold close. destruct (Z.ltb_spec fd 0); [lia|]. split; [reflexivity|]. split; intros ->; [intros ok'; reflexivity|reflexivity].
Qed.
Print Assumptions C77_close.

(** What is put is got, and just the lines in the mask are changed. *)
Theorem C77_values : forall (sioctl : kernel -> Z -> Z -> option kernel) (gioctl : kernel -> Z -> option Z) k state r k',
  sets sioctl -> gets gioctl -> state <> -1 -> put sioctl k state = (r, k') -> r <> -1 ->
  r = state /\ (forall i, 1 <= i -> k' i = k i) /\
  (get (gioctl k') <> -1 -> get (gioctl k') = if state =? 0 then 0 else 1).
Proof.
  intros sioctl gioctl k state r k' S G N P R. unfold put, put_generic in P. cbn [Z.eqb] in P. destruct (sioctl k 1 (if state =? 0 then 0 else 1)) as [k1|] eqn:E; [|injection P as <- _; congruence].
  injection P as <- <-. split; [reflexivity|]. specialize (S _ _ _ _ E). split.
  { intros i I. rewrite S by lia. assert (B : Z.testbit 1 i = false) by (change 1 with (2 ^ 0); apply Z.pow2_bits_false; lia). rewrite B. reflexivity. }
  unfold get, get_generic. cbn [Z.eqb]. destruct (gioctl k1 1) as [bits|] eqn:GE; [|congruence]. intros _. specialize (G _ _ _ GE 0 ltac:(lia)). rewrite S in G by lia.
  change (Z.testbit 1 0) with true in G. cbn [andb] in G. rewrite Z.land_comm. change 1 with (Z.ones 1) at 1. rewrite Z.land_comm, Z.land_ones by lia. change (2 ^ 1) with 2. rewrite Z.bit0_odd in G. rewrite Zmod_odd, G.
  destruct (state =? 0); reflexivity.
Qed.
Print Assumptions C77_values.
Theorem C77_generic : forall (sioctl : kernel -> Z -> Z -> option kernel) (gioctl : kernel -> Z -> option Z) k mask bits k' got,
  sets sioctl -> gets gioctl -> put_generic sioctl k mask bits = Some k' -> get_generic (gioctl k') mask = Some got ->
  got = Z.land mask bits /\ forall i, 0 <= i -> Z.testbit mask i = false -> k' i = k i.
Proof.
  intros sioctl gioctl k mask bits k' got S G P E. unfold put_generic in P. unfold get_generic in E. destruct (mask =? 0); [discriminate P|]. specialize (S _ _ _ _ P). specialize (G _ _ _ E). split.
  - apply Z.bits_inj'. intros i I. rewrite G, S, Z.land_spec by exact I. destruct (Z.testbit mask i); reflexivity.
  - intros i I B. rewrite S by exact I. rewrite B. reflexivity.
Qed.
Print Assumptions C77_generic.

(** Setting a line with minus one works and yet has the result of a failure. *)
Theorem C77_put_refuted : forall (sioctl : kernel -> Z -> Z -> option kernel) k k', sioctl k 1 1 = Some k' -> put sioctl k (-1) = (-1, k').
Proof. intros sioctl k k' E. unfold put, put_generic. cbn [Z.eqb]. rewrite E. reflexivity. Qed.
Print Assumptions C77_put_refuted.

(** An edge is told only of a whole event. *)
Theorem C77_read : forall rc id, (read rc id = 1 <-> rc = 48 /\ id = 1) /\ (read rc id = 0 <-> rc = 48 /\ id = 2) /\
  (read rc id = 1 \/ read rc id = 0 \/ read rc id = -1).
Proof.
  intros rc id. unfold read. destruct (Z.ltb_spec rc 0); [lia|]. destruct (Z.eqb_spec rc 0); [lia|]. destruct (Z.eqb_spec rc 48); cbn [negb]; [|lia].
  destruct (Z.eqb_spec id 1); [lia|]. destruct (Z.eqb_spec id 2); lia.
Qed.
Print Assumptions C77_read.

(** Cases in which the hypotheses hold. *)
Example C77_example :
  let dev := mknode true [103; 49] [47; 103; 49] 5 (Some 3) (fun k => if k =? 0 then Some [] else if k =? 1 then Some [65] else Some [66]) in
  let disk := mknode true [115] [47; 115] 6 None (fun _ => None) in
  find [66] [103] [disk; dev; dev] 4096 = (Some ([47; 103; 49], 2), [Open [47; 103; 49]; Close 5]) /\
  begins [47; 103] /\ signed [45] true /\ number [50; 51] 23 /\
  parse (fun p => Some p) (fun _ => None) [47; 103; 58; 45; 50; 51] = Some ([47; 103], 23, true) /\
  open_generic 4 (Some 9) [109; 101] [47; 103] [7; 5] 2 8 100 = (9, [Open [47; 103]; Request 4 [7; 5] 8 (Some (3, 100)) [109; 101]; Close 4]).
Proof.
  cbn zeta. split; [reflexivity|]. split; [exists [103]; left; reflexivity|]. split; [constructor|]. split; [|split; reflexivity].
  split; [|lia]. apply body_dec; [|discriminate|cbn; lia]. apply (denotes_snoc 10 [50] 2 51 3); [apply (denotes_snoc 10 [] 0 50 2); [constructor|cbn; tauto|lia]|cbn; tauto|lia].
Qed.
Print Assumptions C77_example.
