(** Property theorems for loadable modules. *)

From Coq Require Import ZArith List Bool Lia.
From Verif Require Import ModuleModel ModuleSpec ModuleProofs.
Import ListNotations.
Local Open Scope Z_scope.

(** C90: however the loads and unloads of any number of modules are mixed, if none is unloaded
    more often than it was loaded then each load of a file that has a module returns the
    handle of it, each unload succeeds, and a module is there just while it has been loaded
    more often than unloaded. *)
Theorem C90_balance : forall w ops, (forall m, permanent w m = false) -> matched w ops ->
  let '(r, returned) := history w (fun _ => O) ops in
  returned = map (expected w) ops /\ forall m, r m = (loads w m ops - unloads m ops)%nat /\ (present r m <-> (unloads m ops < loads w m ops)%nat).
Proof.
  intros w ops P M. pose proof (history_ok w ops (fun _ => O) P) as H. destruct (history w (fun _ => O) ops) as (r, l). cbn [fst snd] in H. destruct H as (A & B); [intros before after m E; specialize (M before after m E); lia|]. split; [exact A|].
  intros m. specialize (B m). specialize (M ops [] m ltac:(rewrite app_nil_r; reflexivity)). unfold present. lia.
Qed.
Print Assumptions C90_balance.

(** C90: a module that is not there is not unloaded, its handle is returned, and it has no
    symbols. *)
Theorem C90_absent : forall w r m fuel name version, ~ present r m -> unload (S fuel) w r m false = Some (m, r, 1%nat) /\ symbol w r m name version = 0.
Proof. intros w r m fuel name version N. unfold present in N. assert (R : r m = O) by lia. unfold unload, symbol. cbn [closing]. unfold dlclose. rewrite R. split; reflexivity. Qed.
Print Assumptions C90_absent.

(** C90: to unload by force removes the module however often it was loaded, with one call
    more than there were references, and leaves the others. *)
Theorem C90_force : forall w r m, permanent w m = false -> exists r', unload (S (r m)) w r m true = Some (0, r', S (r m)) /\ ~ present r' m /\ forall x, x <> m -> r' x = r x.
Proof.
  intros w r m P. destruct (closing_force w m P (r m) r (S (r m)) eq_refl ltac:(lia)) as (r' & E & Z0 & O). exists r'. unfold unload. rewrite E. unfold present. split; [reflexivity|]. split; [lia|exact O].
Qed.
Print Assumptions C90_force.

(** C90: but it never returns for a module that is there and is never removed. *)
Theorem C90_force_refuted : forall w r m fuel, permanent w m = true -> present r m -> unload fuel w r m true = None.
Proof. intros w r m fuel P N. unfold unload. rewrite (closing_stuck w m r P N fuel). reflexivity. Qed.
Print Assumptions C90_force_refuted.

(** C90: and the function that finds a module that has been loaded never finds one: the flags
    it gives to dlopen have neither RTLD_LAZY nor RTLD_NOW. *)
Theorem C90_handle_refuted : forall w r f, handle w r f = (0, r).
Proof. reflexivity. Qed.
Print Assumptions C90_handle_refuted.

(** Two files with the same module and one with another: loaded, unloaded, by force too. *)
Example C90_example :
  let w := World (fun f => if f <=? 2 then Some 100 else if f =? 3 then Some 200 else None) (fun _ => false) (fun _ _ _ => None) in
  let ops := [Load 1; Load 3; Load 2; Unload 100; Load 4; Unload 200; Load 1] in
  let '(r, returned) := history w (fun _ => O) ops in
  matched w ops /\ (forall m, permanent w m = false) /\ returned = [100; 200; 100; 0; 0; 0; 100] /\ r 100 = 2%nat /\ r 200 = 0%nat /\
  (match unload 3 w r 100 true with Some (x, r', n) => (x, r' 100, n) = (0, 0%nat, 3%nat) | None => False end).
Proof.
  cbv zeta. cbn [history]. split; [|repeat split].
  intros before after m E. repeat (destruct before as [|? before]; [cbn; destruct m as [|m|m]; try lia; destruct (Pos.eqb 100 m), (Pos.eqb 200 m); cbn; lia|cbn [app] in E; injection E as <- E]).
  destruct before; [cbn; lia|discriminate E].
Qed.
