(** Property C79. *)

From Coq Require Import ZArith List Bool Lia.
From Verif Require Import CInt CUtil NumberSpec OptionModel I2cModel I2cSpec I2cProofs PinProofs.
Import ListNotations.
Local Open Scope Z_scope.

(** Whatever the schedule and the answers, what happens on the bus is one transaction
    after another, none of them interleaved, the last of which may go on; each is that of a
    call, as far as it works; each call that is over returned what it has to; and each
    thread makes its calls in their order. *)
Theorem C79_transactions : forall calls schedule, let s := run (start calls) schedule in
  exists ts last,
    bus s = concat (map trace (ts ++ some last)) /\ Forall proper (ts ++ some last) /\
    Forall2 (fun t p => (who t, what t) = fst p /\ over t (snd p)) ts (returns s) /\
    forall i, exists rest, calls_of i (ts ++ some last) ++ rest = nth i calls [].
Proof.
  intros calls schedule s. destruct (inv_run schedule _ _ _ _ (inv_start calls)) as (ts & last & H & B & P & R & M & L). fold s in H, B, R, M, L. exists ts, last.
  split; [rewrite map_app, concat_app; exact B|]. split.
  { apply Forall_app. split; [exact P|]. destruct last as [t|]; constructor; [|constructor]. destruct (L t eq_refl) as (c & rest & rc & cs & T). specialize (M (who t)). unfold mine in M. rewrite T in M.
    destruct M as (_ & t' & E & _ & _ & G). injection E as <-. exact (going_proper _ _ _ G). }
  split; [exact R|]. intros i. specialize (M i). unfold mine in M. destruct (nth_error (threads s) i) as [[cs|c rest rc cs]|]; destruct M as (E & M).
  - exists cs. symmetry. exact (nth_error_nth _ _ _ E).
  - exists cs. symmetry. exact (nth_error_nth _ _ _ E).
  - exists []. rewrite M. apply nth_error_None in E. rewrite nth_overflow by exact E. reflexivity.
Qed.
Print Assumptions C79_transactions.

(** No more than one thread is ever in the critical section, and it is that which holds
    the mutex. *)
Theorem C79_exclusion : forall calls schedule, let s := run (start calls) schedule in
  forall i c rest rc cs, nth_error (threads s) i = Some (Inside c rest rc cs) -> holder s = Some i /\
  forall j c' rest' rc' cs', nth_error (threads s) j = Some (Inside c' rest' rc' cs') -> j = i.
Proof.
  intros calls schedule s.
  assert (H : forall i c rest rc cs, nth_error (threads s) i = Some (Inside c rest rc cs) -> holder s = Some i).
  { intros i c rest rc cs T. destruct (inv_run schedule _ _ _ _ (inv_start calls)) as (ts & last & H & B & P & R & M & L). fold s in H, M. specialize (M i). unfold mine in M. rewrite T in M. destruct M as (_ & t & -> & W & _). rewrite H. cbn. congruence. }
  intros i c rest rc cs T. split; [exact (H _ _ _ _ _ T)|]. intros j c' rest' rc' cs' T'. apply H in T, T'. congruence.
Qed.
Print Assumptions C79_exclusion.

(** And no thread that is in it keeps it: it gets out by its own steps, no more than five,
    whatever is answered. *)
Theorem C79_leaves : forall s i c rest rc cs answers, nth_error (threads s) i = Some (Inside c rest rc cs) -> length answers = S (length rest) ->
  exists k, (k <= length answers)%nat /\ holder (run s (map (fun a => (i, a)) (firstn k answers))) = None.
Proof.
  intros s i c rest. revert s. induction rest as [|a rest IH]; intros s rc cs answers T LA; destruct answers as [|x answers]; try discriminate LA.
  - exists 1%nat. split; [cbn; lia|]. cbn [firstn map run]. unfold step. rewrite T. reflexivity.
  - injection LA as LA. cbn zeta in *. destruct (Z.ltb_spec (result a x) 0) as [N|N].
    + destruct answers as [|y answers]; [discriminate LA|]. exists 2%nat. split; [cbn; lia|]. cbn [firstn map run]. unfold step at 2. rewrite T. cbv zeta. destruct (Z.ltb_spec (result a x) 0); [|lia].
      unfold step. cbn [threads]. rewrite nth_replace, Nat.eqb_refl, T. reflexivity.
    + assert (T' : nth_error (threads (step s i x)) i = Some (Inside c rest (result a x) cs)).
      { unfold step. rewrite T. cbv zeta. cbn [threads]. rewrite nth_replace, Nat.eqb_refl, T. destruct (Z.ltb_spec (result a x) 0); [lia|reflexivity]. }
      destruct (IH _ _ _ answers T' LA) as (k & K & Q). exists (S k). split; [cbn; lia|]. cbn [firstn map run]. exact Q.
Qed.
Print Assumptions C79_leaves.

(** What diminuto_i2c_get() gives, if all of it is read, is what is in the registers of that
    device at that time, whatever the others did before and do after, and in whatever state
    that left the bus; and it changes no register. *)
Theorem C79_get : forall calls schedule i a r n, let s := run (start calls) schedule in
  In (i, Get a r n, n) (returns s) -> 0 <= n < 2 ^ 31 ->
  exists before after, (exists u v, bus s = before ++ [(i, Use a, u); (i, Write [r], v); (i, Read n, n)] ++ after) /\
    forall w,
      snd (effects w [Use a; Write [r]; Read n]) = gets (Z.to_nat n) r (registers (devices w a)) /\
      forall b, registers (devices (fst (effects w [Use a; Write [r]; Read n])) b) = registers (devices w b).
Proof.
  intros calls schedule i a r n s I (X & N).
  destruct (inv_run schedule _ _ _ _ (inv_start calls)) as (ts & last & _ & B & P & R & M & L). fold s in B, R.
  assert (E : exists t pre post, ts = pre ++ t :: post /\ who t = i /\ what t = Get a r n /\ over t n).
  { clear - R I. induction R as [|t p ts ps (W & O) R IH]; [contradiction|]. destruct I as [->|I].
    - cbn [fst snd] in W, O. injection W as W1 W2. exists t, [], ts. tauto.
    - destruct (IH I) as (t' & pre & post & -> & Q). exists t', (t :: pre), post. tauto. }
  destruct E as (t & pre & post & -> & WI & WC & b & ac & y & ED & O). destruct O as [(_ & ->)|(Y & D & O)]; [lia|].
  rewrite WC in D. apply does_one in D. cbn [program] in D.
  destruct (done t) as [|(a1 & u) [|(a2 & v) [|(a3 & z) [|]]]] eqn:DT; try discriminate D. cbn [map fst] in D. injection D as -> -> ->.
  change [(Use a, u); (Write [r], v); (Read n, z)] with ([(Use a, u); (Write [r], v)] ++ [(Read n, z)]) in ED. apply app_inj_tail in ED. destruct ED as (_ & ED). injection ED as _ ->.
  (* what was read is no more than asked for *)
  exists (concat (map trace pre)), (concat (map trace post) ++ concat (map trace (some last))). split.
  - exists u, v. rewrite B, map_app, concat_app. cbn [map concat]. unfold trace at 2. rewrite DT, WI. cbn [map].
    assert (XZ : n = y).
    { apply O. rewrite Forall_forall in P. destruct (P t (in_elt _ _ _)) as (S & _). rewrite DT in S. rewrite Forall_forall in S. destruct (S (Read n, y) ltac:(cbn; tauto)) as [Q|Q]; cbn in Q; lia. }
    rewrite <- XZ. rewrite <- !app_assoc. reflexivity.
  - intros w. cbn [effects effect selected devices fst snd app message length puts]. unfold at_. cbn [pointer registers]. rewrite !Z.eqb_refl. cbn [pointer registers].
    rewrite app_nil_r. rewrite Z.add_0_r. split; [reflexivity|]. intros c. destruct (c =? a) eqn:EC; [|reflexivity]. apply Z.eqb_eq in EC. subst c. cbn [registers]. reflexivity.
Qed.
Print Assumptions C79_get.

(** But with such a device diminuto_i2c_set() does not set the register: what is to be set
    goes in a message of its own, and its first octet selects a register. *)
Theorem C79_set_refuted : forall w a r x, registers (devices (fst (effects w (program (Set_ a r [x])))) a) = registers (devices w a).
Proof.
  intros w a r x. cbn [program effects effect fst snd selected devices message length puts]. unfold at_. rewrite !Z.eqb_refl. reflexivity.
Qed.
Print Assumptions C79_set_refuted.

(** It does if the number of the register is sent with it. *)
Theorem C79_send : forall w a r x data, (forall k, registers (devices (fst (effects w (program (Send a (r :: x :: data))))) a) k = puts r (x :: data) (registers (devices w a)) k) /\
  forall b, b <> a -> devices (fst (effects w (program (Send a (r :: x :: data))))) b = devices w b.
Proof.
  intros w a r x data. cbn [program effects effect fst snd selected devices message]. unfold at_ at 1 2. split.
  - intros k. unfold at_. rewrite !Z.eqb_refl. reflexivity.
  - intros b N. unfold at_. destruct (Z.eqb_spec b a); [congruence|reflexivity].
Qed.
Print Assumptions C79_send.

(** The name of the bus is right up to bus 99, and not after that. *)
Theorem C79_bus : forall bus, 0 <= bus < 100 -> bus_name bus = [47; 100; 101; 118; 47; 105; 50; 99; 45] ++ dec bus.
Proof.
  intros bus B. unfold bus_name. rewrite utoa_int by lia. apply firstn_all2. rewrite app_length. pose proof (dec_short bus ltac:(lia)).
  assert (L : forall k, (k < 100)%nat -> (length (dec (Z.of_nat k)) <= 2)%nat).
  { intros k K. do 100 (destruct k as [|k]; [vm_compute; repeat constructor|]). lia. }
  specialize (L (Z.to_nat bus) ltac:(lia)). rewrite Z2Nat.id in L by lia. cbn [length]. lia.
Qed.
Print Assumptions C79_bus.

Theorem C79_bus_refuted : bus_name 100 = bus_name 10.
Proof. vm_compute. reflexivity. Qed.
Print Assumptions C79_bus_refuted.

(** A case in which the hypotheses hold: two threads that want the bus at the same time;
    the second waits, and the registers of the one device do not matter to the other. *)
Example C79_example :
  let s := run (start [[Get 16 3 2]; [Send 17 [3; 9]; Get 17 3 1]])
             [(0%nat, 0); (1%nat, 0); (0%nat, 0); (1%nat, 0); (0%nat, 1); (0%nat, 2); (1%nat, 0); (0%nat, 0); (1%nat, 0); (1%nat, 0); (1%nat, -1); (1%nat, 0)] in
  bus s = [(0%nat, Use 16, 0); (0%nat, Write [3], 1); (0%nat, Read 2, 2); (1%nat, Use 17, 0); (1%nat, Write [3; 9], -1)] /\
  returns s = [(0%nat, Get 16 3 2, 2); (1%nat, Send 17 [3; 9], -1)] /\
  In (0%nat, Get 16 3 2, 2) (returns s).
Proof. cbv zeta. split; [reflexivity|]. split; [reflexivity|]. left. reflexivity. Qed.
Print Assumptions C79_example.
