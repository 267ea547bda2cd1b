(** Lemmas on threads that share a bus. *)

From Coq Require Import ZArith List Bool Lia.
From Verif Require Import CInt CUtil I2cModel I2cSpec.
Import ListNotations.
Local Open Scope Z_scope.

Lemma nth_replace i j t l : nth_error (replace i t l) j = if Nat.eqb i j then (if nth_error l i then Some t else None) else nth_error l j.
Proof.
  revert i j. induction l as [|u l IH]; intros i j.
  - destruct i; cbn [replace]; destruct j; cbn; try destruct (Nat.eqb _ _); reflexivity.
  - destruct i, j; cbn [replace nth_error Nat.eqb]; try reflexivity. apply IH.
Qed.

Lemma does_program c : does c (program c).
Proof. destruct c; constructor. Qed.
Lemma does_one c l : does c l -> l = program c.
Proof. intros []; reflexivity. Qed.

(** Where a thread in its critical section is. *)
Definition going (t : transaction) (rest : list action) (rc : Z) : Prop :=
  Forall sensible (done t) /\
  (  (does (what t) (map fst (done t) ++ rest) /\ Forall (fun p => 0 <= snd p) (done t) /\
   (rest = [] -> exists before a, done t = before ++ [(a, rc)])) \/
  (rest = [] /\ rc = -1 /\ exists before a x more, done t = before ++ [(a, x)] /\ x < 0 /\ Forall (fun p => 0 <= snd p) before /\ does (what t) (map fst (done t) ++ more))).

Lemma result_sensible a rc : sensible (a, result a rc).
Proof.
  unfold sensible. cbn [fst snd]. destruct a as [ad|d|n]; cbn [result]; [right; exact Logic.I| |].
  - destruct (Z.ltb_spec rc 0); [lia|]. destruct (Z.ltb_spec (Z.of_nat (length d)) rc); [lia|]. destruct (Z.eqb_spec rc 0); lia.
  - destruct (Z.ltb_spec rc 0); [lia|]. destruct (Z.ltb_spec n rc); [lia|]. destruct (Z.eqb_spec rc 0); lia.
Qed.

Lemma going_proper t rest rc : going t rest rc -> proper t.
Proof.
  intros (S & [(D & F & _)|(_ & _ & before & a & x & more & E & X & F & D)]); (split; [exact S|]).
  - eexists. split; [exact D|]. exists rest. split; [reflexivity|]. intros b a' r after E N. exfalso. rewrite E in F. apply Forall_app in F. destruct F as (_ & F). inversion F; subst. cbn in *. lia.
  - eexists. split; [exact D|]. exists more. split; [reflexivity|]. intros b a' r after E' N. rewrite E in E'. destruct after as [|z after _] using rev_ind; [reflexivity|]. exfalso.
    change (b ++ (a', r) :: after ++ [z]) with (b ++ ((a', r) :: after) ++ [z]) in E'. rewrite app_assoc in E'. apply app_inj_tail in E'. destruct E' as (-> & _).
    apply Forall_app in F. destruct F as (_ & F). inversion F; subst. cbn in *. lia.
Qed.

Definition mine (calls : list (list request)) (s : system) (ts : list transaction) (last : option transaction) (i : nat) : Prop :=
  match nth_error (threads s) i with
  | None => nth_error calls i = None /\ calls_of i (ts ++ some last) = []
  | Some (Outside cs) => nth_error calls i = Some (calls_of i (ts ++ some last) ++ cs) /\ (forall t, last = Some t -> who t <> i)
  | Some (Inside c rest rc cs) => nth_error calls i = Some (calls_of i (ts ++ some last) ++ cs) /\
      exists t, last = Some t /\ who t = i /\ what t = c /\ going t rest rc
  end.
Definition inv (calls : list (list request)) (s : system) (ts : list transaction) (last : option transaction) : Prop :=
  holder s = option_map who last /\
  bus s = concat (map trace ts) ++ concat (map trace (some last)) /\
  Forall proper ts /\
  Forall2 (fun t p => (who t, what t) = fst p /\ over t (snd p)) ts (returns s) /\
  (forall i, mine calls s ts last i) /\
  (forall t, last = Some t -> exists c rest rc cs, nth_error (threads s) (who t) = Some (Inside c rest rc cs)).

Lemma calls_app i a b : calls_of i (a ++ b) = calls_of i a ++ calls_of i b.
Proof. unfold calls_of. rewrite filter_app, map_app. reflexivity. Qed.
Lemma calls_one i t : calls_of i [t] = if Nat.eqb (who t) i then [what t] else [].
Proof. unfold calls_of. cbn [filter]. destruct (Nat.eqb (who t) i); reflexivity. Qed.

Lemma inv_start calls : inv calls (start calls) [] None.
Proof.
  unfold inv, start. cbn [holder bus returns threads]. repeat (split; [reflexivity || constructor|]). split; [|discriminate].
  intros i. unfold mine. cbn [threads]. rewrite nth_error_map. destruct (nth_error calls i) as [cs|] eqn:E; cbn [option_map]; rewrite ?E; split; try reflexivity. discriminate.
Qed.

Lemma inv_step calls s ts last i rc : inv calls s ts last -> exists ts' last', inv calls (step s i rc) ts' last'.
Proof.
  intros I. pose proof I as (H & B & P & R & M & L). unfold step. destruct (nth_error (threads s) i) as [[[|c cs]|c [|a rest] r cs]|] eqn:T; try (exists ts, last; exact I).
  - destruct (holder s) eqn:HS; [exists ts, last; exact I|]. destruct last as [t|]; [discriminate H|].
    exists ts, (Some (mktransaction i c [])). unfold inv. cbn [holder threads bus returns option_map who some map trace done concat]. split; [reflexivity|]. split; [exact B|]. split; [exact P|]. split; [exact R|].
    split.
    + intros j. specialize (M j). unfold mine in M |- *. cbn [threads]. rewrite nth_replace. destruct (Nat.eqb_spec i j) as [<-|N].
      * rewrite T in M |- *. destruct M as (M & _). cbn [some] in M |- *. rewrite app_nil_r in M. rewrite calls_app, calls_one. cbn [who what]. rewrite Nat.eqb_refl. rewrite <- app_assoc. split; [exact M|].
        eexists. split; [reflexivity|]. cbn [who what]. split; [reflexivity|]. split; [reflexivity|]. split; [constructor|]. left. cbn [done what map app]. split; [apply does_program|]. split; [constructor|]. intros E. exfalso. destruct c; discriminate E.
      * assert (C : calls_of j (ts ++ [mktransaction i c []]) = calls_of j ts).
        { rewrite calls_app, calls_one. cbn [who]. destruct (Nat.eqb_spec i j); [congruence|]. apply app_nil_r. }
        cbn [some] in M |- *. rewrite app_nil_r in M. destruct (nth_error (threads s) j) as [[cs'|c' rest r cs']|]; rewrite C.
        -- split; [exact (proj1 M)|]. intros t E. injection E as <-. exact N.
        -- destruct M as (_ & t & E & _). discriminate E.
        -- exact M.
    + intros t E. injection E as <-. cbn [who]. rewrite nth_replace, Nat.eqb_refl, T. do 4 eexists. reflexivity.
  - pose proof (M i) as MI. unfold mine in MI. rewrite T in MI. destruct MI as (MC & t & -> & WI & WC & G). cbn [some] in *.
    exists (ts ++ [t]), None. unfold inv. cbn [holder threads bus returns option_map some map concat]. split; [reflexivity|].
    split; [rewrite B, map_app, concat_app; cbn [map concat]; rewrite !app_nil_r; reflexivity|]. split; [apply Forall_app; split; [exact P|constructor; [exact (going_proper _ _ _ G)|constructor]]|].
    split.
    { apply Forall2_app; [exact R|]. constructor; [|constructor]. cbn [fst snd]. split; [congruence|]. destruct G as (_ & [(D & F & G)|(_ & -> & b & a & x & more & E & X & _)]).
      - destruct (G eq_refl) as (b & a & E). exists b, a, r. split; [exact E|]. right. rewrite app_nil_r in D. rewrite E in F. apply Forall_app in F. destruct F as (_ & F). inversion F; subst. cbn [snd] in *.
        split; [assumption|]. split; [exact D|]. intros Q. unfold s32. rewrite Z.mod_small by lia. lia.
      - exists b, a, x. split; [exact E|]. left. split; [exact X|reflexivity]. }
    split; [|discriminate]. intros j. specialize (M j). unfold mine in M |- *. cbn [threads]. rewrite app_nil_r. rewrite nth_replace. destruct (Nat.eqb_spec i j) as [<-|N].
    + rewrite T. split; [exact MC|discriminate].
    + destruct (nth_error (threads s) j) as [[cs'|c' rest' r' cs']|]; [split; [exact (proj1 M)|discriminate]| |exact M]. destruct M as (_ & t' & E & W & _). injection E as <-. congruence.
  - pose proof (M i) as MI. unfold mine in MI. rewrite T in MI. destruct MI as (MC & t & -> & WI & WC & G). cbn [some] in *. cbv zeta. set (x := result a rc).
    destruct G as (SD & [(D & F & _)|(E & _)]); [|discriminate E].
    exists ts, (Some (mktransaction i c (done t ++ [(a, x)]))). unfold inv. cbn [holder threads bus returns option_map some map concat who].
    split; [rewrite H; cbn [option_map]; congruence|]. split.
    { rewrite B, !app_nil_r. unfold trace. cbn [done who]. rewrite map_app. cbn [map concat]. subst i. rewrite app_nil_r, app_assoc. reflexivity. }
    split; [exact P|]. split; [exact R|]. split.
    + intros j. specialize (M j). unfold mine in M |- *. cbn [threads]. rewrite nth_replace.
      assert (C : calls_of j (ts ++ [mktransaction i c (done t ++ [(a, x)])]) = calls_of j (ts ++ [t])).
      { rewrite !calls_app, !calls_one. cbn [who what]. rewrite WI, WC. reflexivity. }
      cbn [some] in *. rewrite C. destruct (Nat.eqb_spec i j) as [<-|N].
      * rewrite T. assert (G : going (mktransaction i c (done t ++ [(a, x)])) (if x <? 0 then [] else rest) (if x <? 0 then -1 else x)).
        { rewrite WC in D. split; [cbn [done]; apply Forall_app; split; [exact SD|constructor; [apply result_sensible|constructor]]|]. destruct (Z.ltb_spec x 0) as [X|X].
          - right. split; [reflexivity|]. split; [reflexivity|]. exists (done t), a, x, rest. cbn [done what]. split; [reflexivity|]. split; [exact X|]. split; [exact F|]. rewrite map_app. cbn [map fst]. rewrite <- app_assoc. exact D.
          - left. cbn [done what]. rewrite map_app. cbn [map fst]. rewrite <- app_assoc. split; [exact D|]. split; [apply Forall_app; split; [exact F|constructor; [exact X|constructor]]|]. intros _. exists (done t), a. reflexivity. }
        destruct (x <? 0); (split; [exact MC|]); eexists; (split; [reflexivity|]); cbn [who what]; repeat (split; [reflexivity|]); exact G.
      * destruct (nth_error (threads s) j) as [[cs'|c' rest' r' cs']|]; [|destruct M as (_ & t' & E & W & _); injection E as <-; congruence|exact M].
        split; [exact (proj1 M)|]. intros t' E. injection E as <-. exact N.
    + intros t' E. injection E as <-. cbn [who]. rewrite nth_replace, Nat.eqb_refl, T. destruct (x <? 0); do 4 eexists; reflexivity.
Qed.

Lemma inv_run schedule : forall calls s ts last, inv calls s ts last -> exists ts' last', inv calls (run s schedule) ts' last'.
Proof.
  induction schedule as [|(i & rc) schedule IH]; intros calls s ts last I; cbn [run]; [exists ts, last; exact I|].
  destruct (inv_step _ _ _ _ i rc I) as (ts' & last' & I'). exact (IH _ _ _ _ I').
Qed.
