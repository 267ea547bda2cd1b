(** No path is visited twice. *)

From Coq Require Import ZArith List Bool Lia.
From Verif Require Import CUtil CInt StringModel WalkModel WalkSpec WalkProofs.
Import ListNotations.
Local Open Scope Z_scope.

Definition tail_of (r : list Z) : Prop := r = [] \/ exists t, r = 47 :: t.
Definition sep (p : list Z) : list Z := match p with [] => [] | _ => if last p 0 =? 47 then p else p ++ [47] end.
Lemma join_sep p c : join p c = sep p ++ c.
Proof. unfold join, sep. destruct p as [|x p]; [reflexivity|]. destruct (_ =? 47); [reflexivity|]. rewrite <- app_assoc. reflexivity. Qed.
Lemma sep_length p : (length p <= length (sep p))%nat.
Proof. unfold sep. destruct p as [|x p]; [lia|]. destruct (_ =? 47); [lia|]. rewrite app_length. lia. Qed.
Lemma apart c c' r r' : ~ In 47 c -> ~ In 47 c' -> tail_of r -> tail_of r' -> c ++ r = c' ++ r' -> c = c'.
Proof.
  revert c'. induction c as [|x c IH]; intros [|y c'] N N' T T' E; cbn [app] in E.
  - reflexivity.
  - destruct T as [-> |(t & ->)]; [discriminate|]. injection E as E _. exfalso. apply N'. left. symmetry. exact E.
  - destruct T' as [-> |(t & ->)]; [discriminate|]. injection E as E _. exfalso. apply N. left. exact E.
  - injection E as -> E. f_equal. apply IH; auto; intros I; [apply N|apply N']; right; exact I.
Qed.
Lemma last_proper p c : c <> [] -> ~ In 47 c -> last (join p c) 0 <> 47.
Proof.
  intros N H. rewrite join_sep. destruct (exists_last N) as (t & x & ->). rewrite app_assoc, last_last. intros ->. apply H. apply in_or_app. right. left. reflexivity.
Qed.
Lemma no_entry_nil c : no_entry c = false -> c <> [].
Proof. intros H ->. discriminate. Qed.

Lemma under n : forall name base depth v, proper n -> last (join base name) 0 <> 47 -> join base name <> [] -> In v (everything n name base depth) -> exists r, v_path v = join base name ++ r /\ tail_of r.
Proof.
  induction n as [e|mode u l a b IH] using node_induction; intros name base depth v Pr La Ne I; [destruct I|]. cbn [everything] in I. destruct I as [<- |I].
  - exists []. rewrite app_nil_r. split; [reflexivity|left; reflexivity].
  - destruct (directory mode); [|destruct I]. destruct u; [destruct I|]. apply in_flat_map in I as ([d n] & Il & I). destruct (no_entry d) eqn:D; [destruct I|].
    cbn [proper] in Pr. destruct Pr as (_ & Pr). rewrite each_Forall, Forall_forall in Pr. specialize (Pr _ Il). cbn in Pr. destruct Pr as (Nd & Pn).
    rewrite Forall_forall in IH. pose proof (last_proper (join base name) d (no_entry_nil _ D) Nd) as L2. destruct (IH _ Il d (join base name) (depth + 1) v Pn L2) as (r & E & T).
    + rewrite join_sep. intros X. apply app_eq_nil in X as (_ & X). exact (no_entry_nil _ D X).
    + exact I.
    + rewrite E. set (P := join base name) in *. exists (47 :: d ++ r). split; [|right; eexists; reflexivity]. unfold join. destruct P as [|x P]; [contradiction|]. destruct (Z.eqb_spec (last (x :: P) 0) 47); [contradiction|]. rewrite <- app_assoc. reflexivity.
Qed.

Lemma once n : forall name base depth, proper n -> join base name <> [] -> NoDup (map v_path (everything n name base depth)).
Proof.
  induction n as [e|mode u l a b IH] using node_induction; intros name base depth Pr Ne; [constructor|]. cbn [everything map v_path].
  destruct (directory mode); [|repeat constructor; intros []]. destruct u; [repeat constructor; intros []|]. cbn [proper] in Pr. destruct Pr as (Nd & Pr). rewrite each_Forall in Pr. set (P := join base name) in *.
  assert (U : forall v, In v (flat_map (fun e => match e with (d_name, n) => if no_entry d_name then [] else everything n d_name P (depth + 1) end) l) -> exists d n r, In (d, n) l /\ d <> [] /\ ~ In 47 d /\ v_path v = sep P ++ d ++ r /\ tail_of r).
  { intros v I. apply in_flat_map in I as ([d n] & Il & I). destruct (no_entry d) eqn:D; [destruct I|]. rewrite Forall_forall in Pr. specialize (Pr _ Il). cbn in Pr. destruct Pr as (N47 & Pn).
    destruct (under n d P (depth + 1) v Pn (last_proper P d (no_entry_nil _ D) N47)) as (r & E & T).
    - rewrite join_sep. intros X. apply app_eq_nil in X as (_ & X). exact (no_entry_nil _ D X).
    - exact I.
    - exists d, n, r. rewrite E, join_sep, <- app_assoc. eauto 8 using no_entry_nil. }
  constructor.
  - intros I. apply in_map_iff in I as (v & E & I). destruct (U v I) as (d & n & r & _ & D & _ & E' & _). rewrite E in E'. apply (f_equal (@length Z)) in E'. rewrite !app_length in E'. pose proof (sep_length P). destruct d; [contradiction|]. cbn [length] in E'. lia.
  - clear U. induction l as [|[d n] l IHl]; [constructor|]. cbn [flat_map]. inversion Nd as [|? ? Nd1 Nd2]; subst. pose proof (Forall_inv IH) as IH1. pose proof (Forall_inv_tail IH) as IH2. pose proof (Forall_inv Pr) as Pr1. pose proof (Forall_inv_tail Pr) as Pr2. cbn [fst snd] in *.
    specialize (IHl IH2 Nd2 Pr2). destruct (no_entry d) eqn:D; [exact IHl|]. rewrite map_app. destruct Pr1 as (N47 & Pn).
    assert (Nj : join P d <> []) by (rewrite join_sep; intros X; apply app_eq_nil in X as (_ & X); exact (no_entry_nil _ D X)).
    specialize (IH1 d P (depth + 1) Pn Nj).
    assert (Dis : forall x, In x (map v_path (everything n d P (depth + 1))) -> ~ In x (map v_path (flat_map (fun e => match e with (d_name, n) => if no_entry d_name then [] else everything n d_name P (depth + 1) end) l))).
    { intros x I1 I2. apply in_map_iff in I1 as (v & <- & I1). apply in_map_iff in I2 as (v' & Ev & I2). apply in_flat_map in I2 as ([d' n'] & Il & I2). destruct (no_entry d') eqn:D'; [destruct I2|].
      rewrite Forall_forall in Pr2. pose proof (Pr2 _ Il) as (N47' & Pn').
      destruct (under n d P (depth + 1) v Pn (last_proper P d (no_entry_nil _ D) N47) Nj I1) as (r & E & T).
      destruct (under n' d' P (depth + 1) v' Pn' (last_proper P d' (no_entry_nil _ D') N47')) as (r' & E' & T'); [|exact I2|].
      - rewrite join_sep. intros X. apply app_eq_nil in X as (_ & X). exact (no_entry_nil _ D' X).
      - rewrite Ev, E, !join_sep, <- !app_assoc in E'. apply app_inv_head in E'. pose proof (apart d d' r r' N47 N47' T T' E') as ->. apply Nd1. apply in_map_iff. exists (d', n'). auto. }
    revert IH1 IHl Dis. generalize (map v_path (everything n d P (depth + 1))). intros xs. generalize (map v_path (flat_map (fun e => match e with (d_name, n) => if no_entry d_name then [] else everything n d_name P (depth + 1) end) l)). intros ys Nx Ny Dis. clear -Nx Ny Dis.
    induction xs as [|x xs IHx]; [exact Ny|]. inversion Nx as [|? ? Nx1 Nx2]; subst. cbn [app]. constructor.
    + intros I. apply in_app_or in I as [I|I]; [exact (Nx1 I)|]. exact (Dis x (or_introl eq_refl) I).
    + apply IHx; [exact Nx2|]. intros y Iy. apply Dis. right. exact Iy.
Qed.
