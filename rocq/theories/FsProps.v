(** The properties: directories that are made, canonical paths, and the search for files. *)

From Coq Require Import ZArith List Bool Lia.
From Verif Require Import CUtil CInt StringModel WalkModel WalkSpec FsModel FsSpec FsProofs FsProofs2.
Import ListNotations.
Local Open Scope Z_scope.

(** ** C57: mkdir -p *)

(** What is asked of mkdir(2) is to make each directory of the path, outermost first (or of
    what comes before its last slash, if the last is not to be made), until one cannot be
    made and is not there: whatever mkdir(2) answers, and without an access outside of the
    buffer. A path that is too long is refused and nothing is made. *)
Theorem C57_mkdir_p : forall F (mkdir : F -> list Z -> option Z * F) path (all : bool) fs, string_ok path ->
  mkdir_p F mkdir path all fs =
    if Z.of_nat (length path) <? SIZE then Some (make mkdir fs (directories (if all then path else before path))) else Some (-1, fs).
Proof.
  intros F mkdir path all fs S. destruct (Z.ltb_spec (Z.of_nat (length path)) SIZE) as [L|L]; [apply mkdir_p_ok; assumption|apply mkdir_long; exact L].
Qed.
Print Assumptions C57_mkdir_p.

(** What the directories of a path are: the parts between slashes that are not empty, each
    one after those before it; and these parts, with the empty ones, make up the path. *)
Theorem C57_components : forall d l, glue d (split d l) = l /\ Forall (fun x => ~ In d x) (split d l) /\ components d l = filter (fun x => negb (Nat.eqb (length x) 0)) (split d l).
Proof.
  intros d l. destruct (split_glue d l) as [A B]. split; [exact A|split; [exact B|]]. unfold components. apply filter_ext. intros [|]; reflexivity.
Qed.
Print Assumptions C57_components.
Example C57_components_example :
  directories [47; 97; 47; 47; 98; 99; 47] = [[47; 97]; [47; 97; 47; 98; 99]] /\ directories [97; 47; 98] = [[97]; [97; 47; 98]] /\ before [97; 47; 98] = [97] /\ directories [47; 47] = [].
Proof. repeat split; reflexivity. Qed.

(** If it tells of success, then what was there is there and so is each directory of the
    path: for any file system whose mkdir(2) makes what it says it made, and in which what
    exists is there. *)
Theorem C57_there : forall F (mkdir : F -> list Z -> option Z * F) (there : F -> list Z -> Prop),
  (forall fs d e fs', mkdir fs d = (e, fs') -> (e = None \/ e = Some 17) -> there fs' d) ->
  (forall fs d e fs' x, mkdir fs d = (e, fs') -> there fs x -> there fs' x) ->
  forall path (all : bool) fs fs', string_ok path -> mkdir_p F mkdir path all fs = Some (0, fs') ->
  forall x, there fs x \/ In x (directories (if all then path else before path)) -> there fs' x.
Proof. exact mkdir_p_makes. Qed.
Print Assumptions C57_there.

(** And if nothing that is no directory is in the way, it does succeed; then the directories
    of the path are there, and nothing else has changed. *)
Theorem C57_creates : forall path (all : bool) fs, string_ok path -> Z.of_nat (length path) < SIZE ->
  (forall d, In d (directories (if all then path else before path)) -> lookup fs d <> Some false) ->
  exists fs', mkdir_p disk mkdir2 path all fs = Some (0, fs') /\
    forall d, lookup fs' d = if in_dec (list_eq_dec Z.eq_dec) d (directories (if all then path else before path)) then Some true else lookup fs d.
Proof. exact mkdir_p_creates. Qed.
Print Assumptions C57_creates.
(** "a" is there, with a file "a/x": "a/b/c" is made, with or without its last. *)
Example C57_creates_example :
  let fs := [([97; 47; 120], false); ([97], true)] in
  mkdir_p disk mkdir2 [97; 47; 98; 47; 99] true fs = Some (0, ([97; 47; 98; 47; 99], true) :: ([97; 47; 98], true) :: fs) /\
  mkdir_p disk mkdir2 [97; 47; 98; 47; 99] false fs = Some (0, ([97; 47; 98], true) :: fs) /\
  mkdir_p disk mkdir2 [97; 47; 120; 47; 99] true fs = Some (-1, fs).
Proof. vm_compute. repeat split; reflexivity. Qed.

(** But success does not mean that there is a directory: a file of that name will do. *)
Theorem C57_directory_refuted : exists path fs fs', string_ok path /\ mkdir_p disk mkdir2 path true fs = Some (0, fs') /\ In path (directories path) /\ lookup fs' path = Some false.
Proof.
  exists [97; 47; 120], [([97; 47; 120], false); ([97], true)], [([97; 47; 120], false); ([97], true)]. split; [intros [X|[X|[X|[]]]]; discriminate|]. vm_compute. repeat split; auto.
Qed.
Print Assumptions C57_directory_refuted.

(** ** C58: canonical paths, and types *)

(** What must exist of a path is resolved; to this is appended, with a slash if there is
    none, what need not exist. If there is no such directory, or the path does not fit, the
    buffer is left alone; else it is written within the size only. This holds of paths that
    are neither the root nor right in it. *)
Theorem C58_canonicalize : forall realpath path buffer size, real_ok realpath -> string_ok path -> path <> [] -> Z.of_nat (length path) < SIZE -> ~ rooted path -> size <= Z.of_nat (length buffer) ->
  match realpath (must path) with
  | None => canonicalize realpath path buffer size = Some (-1, buffer)
  | Some p =>
      if 1 + Z.of_nat (length p) + Z.of_nat (length (need_not path)) <? size
      then exists b, canonicalize realpath path buffer size = Some (0, b) /\ cstr b = Some (join p (need_not path)) /\ length b = length buffer /\ skipn (Z.to_nat size) b = skipn (Z.to_nat size) buffer
      else canonicalize realpath path buffer size = Some (-1, buffer)
  end.
Proof. exact canonicalize_ok. Qed.
Print Assumptions C58_canonicalize.
(** In the directory /w: "f" is "/w/f"; "d/f" is "/w/d/f"; "d/" is "/w/d/"; "../f" is "/f". *)
Definition C58_real (path : list Z) : option (list Z) :=
  if list_eq_dec Z.eq_dec path [46] then Some [47; 119]
  else if list_eq_dec Z.eq_dec path [100; 47] then Some [47; 119; 47; 100]
  else if list_eq_dec Z.eq_dec path [46; 46; 47] then Some [47]
  else None.
Example C58_canonicalize_example :
  real_ok C58_real /\
  canonicalize C58_real [102] [1; 1; 1; 1; 1; 1; 1] 6 = Some (0, [47; 119; 47; 102; 0; 1; 1]) /\
  canonicalize C58_real [100; 47; 102] [1; 1; 1; 1; 1; 1; 1; 1] 7 = Some (0, [47; 119; 47; 100; 47; 102; 0; 1]) /\
  canonicalize C58_real [100; 47] [1; 1; 1; 1; 1; 1; 1; 1] 7 = Some (0, [47; 119; 47; 100; 47; 0; 1; 1]) /\
  canonicalize C58_real [46; 46; 47; 102] [1; 1; 1; 1; 1; 1; 1; 1] 7 = Some (0, [47; 102; 0; 1; 1; 1; 1; 1]) /\
  canonicalize C58_real [120; 47; 102] [1; 1; 1; 1; 1; 1; 1; 1] 7 = Some (-1, [1; 1; 1; 1; 1; 1; 1; 1]).
Proof.
  split; [|vm_compute; repeat split; reflexivity]. intros p q. unfold C58_real. repeat (destruct (list_eq_dec _ _ _)); intros [= <-]; (split; [reflexivity|split; [|reflexivity]]); intros H; repeat (destruct H as [H|H]; [discriminate|]); destruct H.
Qed.

(** Of the root, and of what is right in it, the octet before a buffer is read. *)
Theorem C58_root_refuted : forall realpath f buffer size, ~ In 47 f -> 2 + Z.of_nat (length f) <= SIZE -> 2 + Z.of_nat (length f) <= size -> size <= Z.of_nat (length buffer) ->
  canonicalize realpath (47 :: f) buffer size = None.
Proof. exact canonicalize_rooted. Qed.
Print Assumptions C58_root_refuted.
Example C58_root_example : canonicalize (fun _ => None) [47; 116; 109; 112] (repeat 1 10) 10 = None.
Proof. reflexivity. Qed.

(** The canonical path of "." is not that of the directory, but has "/." after it. *)
Theorem C58_dot_refuted : exists realpath buffer p b, real_ok realpath /\ realpath [46] = Some p /\ canonicalize realpath [46] buffer (Z.of_nat (length buffer)) = Some (0, b) /\ cstr b = Some (p ++ [47; 46]).
Proof.
  exists C58_real, (repeat 1 10), [47; 119], [47; 119; 47; 46; 0; 1; 1; 1; 1; 1]. split; [exact (proj1 C58_canonicalize_example)|]. repeat split; reflexivity.
Qed.
Print Assumptions C58_dot_refuted.

(** Expansion: the resolved path, or as much of it as fits, always with a NUL and within the
    size. *)
Theorem C58_expand : forall realpath path buffer size, real_ok realpath -> 0 <= size <= Z.of_nat (length buffer) ->
  match realpath path with
  | None => expand realpath path buffer size = Some (-1, buffer)
  | Some p =>
      if size =? 0 then expand realpath path buffer size = Some (-1, buffer)
      else exists b, expand realpath path buffer size = Some (0, b) /\ cstr b = Some (firstn (Z.to_nat (size - 1)) p) /\ length b = length buffer /\ skipn (Z.to_nat size) b = skipn (Z.to_nat size) buffer
  end.
Proof. exact expand_ok. Qed.
Print Assumptions C58_expand.
Example C58_expand_example : expand C58_real [100; 47] [1; 1; 1; 1; 1; 1; 1] 6 = Some (0, [47; 119; 47; 100; 0; 0; 1]).
Proof. reflexivity. Qed.
(** So success does not mean that the path is all there. *)
Theorem C58_expand_refuted : exists realpath path buffer p b, real_ok realpath /\ realpath path = Some p /\ expand realpath path buffer (Z.of_nat (length buffer)) = Some (0, b) /\ cstr b <> Some p.
Proof.
  exists C58_real, [100; 47], [1; 1; 1], [47; 119; 47; 100], [47; 119; 0]. split; [exact (proj1 C58_canonicalize_example)|]. repeat split; try reflexivity. discriminate.
Qed.
Print Assumptions C58_expand_refuted.

(** The letters of the seven types; and modes have the same letter just if their types are
    the same. *)
Theorem C58_type :
  (forall m1 m2, mode2type m1 = mode2type m2 <-> (m1 / 2 ^ 12) mod 2 ^ 4 = (m2 / 2 ^ 12) mod 2 ^ 4) /\
  forall t l, In (t, l) [(8, 102); (4, 100); (10, 108); (2, 99); (6, 98); (1, 112); (12, 115); (0, 48); (9, 57); (15, 70)] -> forall m, (m / 2 ^ 12) mod 2 ^ 4 = t -> mode2type m = l.
Proof.
  split; [exact mode2type_inj|]. intros t l H m E. rewrite mode2type_bits, E. repeat (destruct H as [H|H]; [injection H as <- <-; reflexivity|]). destruct H.
Qed.
Print Assumptions C58_type.
(** 0100644, 040755. *)
Example C58_type_example : mode2type 33188 = 102 /\ mode2type 16877 = 100.
Proof. split; reflexivity. Qed.

(** ** C59: the search for a file *)

(** What is found is the first of the candidates at which there is something; and the search
    ends at the first candidate that is too long. *)
Theorem C59_scan : forall stat string file, scan stat (Some string) (Some file) = Some (first_of stat (until_long (candidates string file))).
Proof. intros. apply scan_loop_ok. auto. Qed.
Print Assumptions C59_scan.

(** So if none is too long it is the first of all. *)
Theorem C59_first : forall stat string file, Forall (fun x => Z.of_nat (length x) < SIZE) (candidates string file) ->
  match scan stat (Some string) (Some file) with
  | Some (Some path) => exists l1 l2, candidates string file = l1 ++ path :: l2 /\ stat path = true /\ Forall (fun x => stat x = false) l1
  | Some None => Forall (fun x => stat x = false) (candidates string file)
  | None => False
  end.
Proof.
  intros stat string file H. rewrite C59_scan, until_long_all by exact H. clear H. generalize (candidates string file) as l. unfold first_of. induction l as [|x l IH]; cbn [List.find]; [constructor|].
  destruct (stat x) eqn:E; [exists [], l; auto|]. destruct (List.find stat l) as [p|].
  - destruct IH as (l1 & l2 & -> & S & F). exists (x :: l1), l2. auto.
  - constructor; assumption.
Qed.
Print Assumptions C59_first.
(** PATH is "/a::/b"; "f" is in both; or in the second. *)
Example C59_first_example :
  candidates [47; 97; 58; 58; 47; 98] [102] = [[47; 97; 47; 102]; [47; 98; 47; 102]] /\
  find (fun _ => Some [47; 97; 58; 58; 47; 98]) (fun _ => true) (Some [80]) (Some [102]) = Some (Some [47; 97; 47; 102]) /\
  find (fun _ => Some [47; 97; 58; 58; 47; 98]) (fun p => nth 1 p 0 =? 98) (Some [80]) (Some [102]) = Some (Some [47; 98; 47; 102]).
Proof. repeat split; reflexivity. Qed.

(** By the name of a variable of the environment: the search of its value; nothing is found
    without one, or without a file. *)
Theorem C59_find : forall getenv stat keyword file,
  find getenv stat keyword file =
    match keyword with
    | None => Some None
    | Some k => match getenv k, file with Some v, Some f => Some (first_of stat (until_long (candidates v f))) | _, _ => Some None end
    end.
Proof. intros getenv stat [k|] file; [|reflexivity]. unfold find, scan. destruct (getenv k) as [v|]; [|reflexivity]. destruct file as [f|]; [|reflexivity]. apply scan_loop_ok. auto. Qed.
Print Assumptions C59_find.

(** A directory whose path is too long hides those that come after it. *)
Theorem C59_long_refuted : forall d file, ~ In 58 d -> d <> [] -> SIZE <= Z.of_nat (length d) -> exists string,
  In ([47; 98] ++ [47] ++ file) (candidates string file) /\ scan (fun _ => true) (Some string) (Some file) = Some None.
Proof.
  intros d file N Nd L. exists (d ++ [58; 47; 98]).
  assert (C : components 58 (d ++ [58; 47; 98]) = [d; [47; 98]]).
  { unfold components. assert (split 58 (d ++ [58; 47; 98]) = [d; [47; 98]]) as ->; [|cbn [filter]; destruct d; [contradiction|reflexivity]]. clear Nd L. induction d as [|x d IH]; [reflexivity|]. cbn [app split]. destruct (Z.eqb_spec x 58) as [-> |]; [exfalso; apply N; left; reflexivity|]. rewrite IH; [reflexivity|]. intros X. apply N. right. exact X. }
  split; [unfold candidates; rewrite C; right; left; reflexivity|]. rewrite C59_scan. unfold candidates. rewrite C. cbn [map until_long].
  destruct (Z.ltb_spec (Z.of_nat (length (d ++ [47] ++ file))) SIZE) as [X|X]; [|reflexivity]. rewrite !app_length, !Nat2Z.inj_add in X. cbn [length] in X. lia.
Qed.
Print Assumptions C59_long_refuted.
