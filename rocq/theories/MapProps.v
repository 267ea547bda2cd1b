(** Property C72. *)

From Coq Require Import ZArith List Bool Lia.
From Verif Require Import CInt CUtil MapModel MapSpec.
Import ListNotations.
Local Open Scope Z_scope.

(** If mapping works, the pages that contain the block are mapped, and no more of them
    before it than need be: the address asked for is that of a page, the result is in
    the mapping where the block begins, and the block is in the mapping. *)
Theorem C72_map : forall sys pagesize start length result base size calls,
  0 < pagesize -> 0 <= start < 2 ^ 63 -> 0 < length -> length + start mod pagesize < 2 ^ 64 -> sane sys pagesize ->
  map_ sys pagesize start length = (result, base, size, calls) -> result <> 0 ->
  exists fd offset, In (Mmap size fd offset) calls /\ base = sys (Mmap size fd offset) /\
    offset mod pagesize = 0 /\ offset <= start < offset + pagesize /\
    result - base = start - offset /\ base <= result /\ result + length <= base + size /\ size - length < pagesize.
Proof.
  intros sys pg start length result base size calls Hp Hs Hl Hw Hsane E Hr. unfold map_ in E.
  destruct (sys Open <? 0); [congruence|]. pose proof (Z.mod_pos_bound start pg Hp) as B. pose proof (Z.mod_le start pg ltac:(lia) Hp) as B2.
  assert (E1 : s64 (u64 (start - start mod pg)) = start - start mod pg).
  { unfold s64, u64. rewrite (Z.mod_small (start - start mod pg)) by lia. rewrite Z.mod_small by lia. lia. }
  assert (E2 : u64 (length + start mod pg) = length + start mod pg) by (unfold u64; apply Z.mod_small; lia).
  rewrite E1, E2 in E. set (a := start - start mod pg) in *. set (sz := length + start mod pg) in *.
  destruct (Z.ltb_spec (sys (Mmap sz (sys Open) a)) 0) as [Q|Q]; [congruence|].
  destruct (Hsane _ _ _ Q) as (S1 & S2 & S3 & _). injection E as E3 <- <- <-.
  exists (sys Open), a. split; [cbn; auto|]. split; [reflexivity|].
  assert (R : result = sys (Mmap sz (sys Open) a) + start mod pg) by (rewrite <- E3; unfold u64; apply Z.mod_small; unfold sz in *; lia).
  assert (A : a = start - start mod pg) by reflexivity. assert (SZ : sz = length + start mod pg) by reflexivity. clearbody a sz.
  split; [rewrite A, Zminus_mod, Z.mod_mod, Z.sub_diag by lia; reflexivity|].
  split; [lia|]. split; [lia|]. split; lia.
Qed.
Print Assumptions C72_map.

(** Whatever fails, what was opened is closed just once, and a result of zero leaves
    nothing to unmap. *)
Theorem C72_closed : forall sys pagesize start length result base size calls,
  map_ sys pagesize start length = (result, base, size, calls) ->
  opens calls = 1%nat /\ (0 <= sys Open -> closes (sys Open) calls = 1%nat) /\
  (sys Open < 0 -> forall fd, closes fd calls = 0%nat) /\
  (forall p s o, In (Mmap p s o) calls -> 0 <= sys Open) /\
  ((base = 0 /\ size = 0 /\ result = 0) \/ (exists fd o, In (Mmap size fd o) calls /\ base = sys (Mmap size fd o) /\ 0 <= base)).
Proof.
  intros sys pg start length result base size calls E. unfold map_ in E.
  destruct (Z.ltb_spec (sys Open) 0) as [Q|Q].
  { injection E as <- <- <- <-. split; [reflexivity|]. split; [lia|]. split; [reflexivity|]. split; [|auto]. intros p s o [I|[]]. discriminate I. }
  assert (C : forall c, closes (sys Open) [Open; c; Close (sys Open)] = if match c with Close x | Fclose x => x =? sys Open | _ => false end then 2%nat else 1%nat).
  { intros c. unfold closes. cbn [filter]. rewrite Z.eqb_refl. destruct (match c with Close x | Fclose x => x =? sys Open | _ => false end); reflexivity. }
  match type of E with (if ?b then _ else _) = _ => destruct b eqn:G end; injection E as <- <- <- <-; (split; [reflexivity|]); (split; [intros _; rewrite C; reflexivity|]); (split; [lia|]);
    (split; [intros; exact Q|]); [left; auto|right]. eexists _, _. split; [right; left; reflexivity|]. split; [reflexivity|]. apply Z.ltb_ge, G.
Qed.
Print Assumptions C72_closed.

(** Unmapping unmaps just what was mapped, and once only. *)
Theorem C72_unmap : forall sys sys' pagesize start length result base size calls rc base' size' calls',
  map_ sys pagesize start length = (result, base, size, calls) ->
  unmap sys' base size = (rc, base', size', calls') ->
  (forall c, In c calls' -> c = Munmap base size) /\ (List.length calls' <= 1)%nat /\
  (size <> 0 -> calls' = [Munmap base size]) /\
  (0 <= rc -> snd (unmap sys' base' size') = []).
Proof.
  intros sys sys' pg start length result base size calls rc base' size' calls' E U. unfold unmap in U. destruct (Z.eqb_spec size 0) as [->|N].
  - injection U as <- <- <- <-. split; [intros c []|]. split; [cbn; lia|]. split; [congruence|]. reflexivity.
  - destruct (Z.ltb_spec (sys' (Munmap base size)) 0) as [Q|Q]; injection U as <- <- <- <-;
      (split; [intros c [I|[]]; auto|]); (split; [cbn; lia|]); (split; [reflexivity|]); [lia|reflexivity].
Qed.
Print Assumptions C72_unmap.

(** If the length and the offset in the page wrap around, less than the block is
    mapped although it is told to have worked. *)
Theorem C72_wrap_refuted : let sys := fun c => match c with Open => 3 | Mmap _ _ _ => 4096 | _ => 0 end in
  sane (fun c => match c with Mmap size _ _ => if (0 <? size) && (size <=? 4096) then 4096 else -1 | c => sys c end) 4096 /\
  map_ (fun c => match c with Mmap size _ _ => if (0 <? size) && (size <=? 4096) then 4096 else -1 | c => sys c end) 4096 8195 (2 ^ 64 - 1) =
    (4099, 4096, 2, [Open; Mmap 2 3 8192; Close 3]).
Proof.
  cbn zeta. split; [|reflexivity]. intros size fd offset H. cbn in *.
  destruct (Z.ltb_spec 0 size); cbn [andb] in *; [|lia]. destruct (Z.leb_spec size 4096); [|lia]. repeat split; lia.
Qed.
Print Assumptions C72_wrap_refuted.

(** The minimum: a result of zero means that it was written, or that it could not even
    be opened. *)
Theorem C72_minimum : forall sys user value rc calls, minimum sys user value = (rc, calls) ->
  (rc = 0 -> user = false /\ (sys Open < 0 \/ (In (Fprintf (sys Open) value) calls /\ 0 <= sys (Fprintf (sys Open) value) /\ 0 <= sys (Fclose (sys Open))))) /\
  (user = true -> rc = -1 /\ calls = []).
Proof.
  intros sys user value rc calls E. unfold minimum in E. destruct user; [injection E as <- <-; split; [discriminate|auto]|].
  split; [|discriminate]. intros ->. split; [reflexivity|]. destruct (Z.ltb_spec (sys Open) 0) as [Q|Q]; [auto|]. right.
  destruct (sys (Fdopen (sys Open)) <? 0); [destruct (sys (Close (sys Open)) <? 0); discriminate E|].
  destruct (Z.ltb_spec (sys (Fclose (sys Open))) 0); [destruct (sys (Close (sys Open)) <? 0); discriminate E|].
  destruct (Z.ltb_spec (sys (Fprintf (sys Open) value)) 0); [discriminate E|]. injection E as <-. cbn. auto 10.
Qed.
Print Assumptions C72_minimum.

(** So a failure to open is not told; and if fclose(3) fails the descriptor is closed
    a second time. *)
Theorem C72_minimum_refuted : forall value,
  minimum (fun c => match c with Open => -13 | _ => 0 end) false value = (0, [Open]) /\
  exists calls, minimum (fun c => match c with Open => 3 | Fclose _ => -1 | _ => 0 end) false value = (-4, calls) /\ closes 3 calls = 2%nat.
Proof. intros value. split; [reflexivity|]. eexists. split; reflexivity. Qed.
Print Assumptions C72_minimum_refuted.

(** A case in which the hypotheses hold. *)
Example C72_example :
  let sys := fun c => match c with Open => 3 | Mmap size _ _ => if (0 <? size) && (size <=? 65536) then 0x7f0000000000 else -1 | _ => 0 end in
  sane sys 4096 /\ map_ sys 4096 0xfe003010 8 = (0x7f0000000010, 0x7f0000000000, 24, [Open; Mmap 24 3 0xfe003000; Close 3]).
Proof.
  cbn zeta. split; [|reflexivity]. intros size fd offset H. cbn in *.
  destruct (Z.ltb_spec 0 size); cbn [andb] in *; [|lia]. destruct (Z.leb_spec size 65536); [|lia]. repeat split; lia.
Qed.
Print Assumptions C72_example.
