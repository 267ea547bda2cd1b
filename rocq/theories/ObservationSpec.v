(** Specification for observations. *)

From Coq Require Import ZArith List Bool Arith.
From Verif Require Import CInt CUtil DiskModel ObservationModel.
Import ListNotations.
Local Open Scope Z_scope.

(** What is in the target, if there is one. *)
Definition target_data (d : disk) : option (list Z) := option_map (data d) (entry d TARGET).

Definition same_data (a b : option (list Z)) : {a = b} + {a <> b}.
Proof. decide equality. apply (list_eq_dec Z.eq_dec). Defined.

(** The reference: a target that changes all at once. A thread has no observation; or it is
    in create; or it has one, with all that it wrote; or it is in commit, before or after
    it took effect, or in checkpoint or discard; or its commit or discard failed; or it
    reads, what was in the target when it opened it. *)
Inductive status :=
  | RFree | RCreating | ROpen (l : list Z) | RCommitting (l : list Z) | RCommitted | RChecking (l : list Z) | RChecked (l : list Z) | RDiscarding | RStale | RReading (l : option (list Z)).
Record ref := Ref { target : option (list Z); status_of : nat -> status }.
Definition moves (r : ref) (t : nat) (s : status) : option ref := Some (Ref (target r) (fun u => if (u =? t)%nat then s else status_of r u)).
Definition r_step (len : Z) (r : ref) (te : nat * event) : option ref :=
  let (t, e) := te in
  match status_of r t, e with
  | RFree, Called CREATE | RStale, Called CREATE => moves r t RCreating
  | RCreating, Returned CREATE true => moves r t (ROpen [])
  | RCreating, Returned CREATE false => moves r t RFree
  | ROpen l, Wrote o x => moves r t (ROpen (put o x l))
  | ROpen l, Called COMMIT => moves r t (RCommitting l)
  | RCommitting l, Committed l' => if list_eq_dec Z.eq_dec l l' then Some (Ref (Some l) (fun u => if (u =? t)%nat then RCommitted else status_of r u)) else None
  | RCommitted, Returned COMMIT true => moves r t RFree
  | RCommitting l, Returned COMMIT false => moves r t (if commit_accepts len then RStale else ROpen l)
  | ROpen l, Called CHECKPOINT => moves r t (RChecking l)
  | RChecking l, Stamped _ => moves r t (RChecked l)
  | RChecked l, Returned CHECKPOINT true => moves r t (ROpen l)
  | RChecking l, Returned CHECKPOINT false => moves r t (ROpen l)
  | ROpen l, Called DISCARD => moves r t RDiscarding
  | RDiscarding, Returned DISCARD true => moves r t RFree
  | RDiscarding, Returned DISCARD false => moves r t RStale
  | RFree, Opened => moves r t (RReading (target r))
  | RReading l, Got l' => if same_data l l' then moves r t RFree else None
  | _, _ => None
  end.
Fixpoint r_run (len : Z) (r : ref) (h : list (nat * event)) : option ref :=
  match h with
  | [] => Some r
  | e :: h => let* r := r_step len r e in r_run len r h
  end.
Definition r_start (l : option (list Z)) : ref := Ref l (fun _ => RFree).

(** What was last committed, or what there was. *)
Fixpoint current (init : option (list Z)) (h : list (nat * event)) : option (list Z) :=
  match h with
  | [] => init
  | (_, Committed l) :: h => current (Some l) h
  | _ :: h => current init h
  end.

(** What thread [t] has in a file that contained [f], after the writes of [h]. *)
Fixpoint written (t : nat) (h : list (nat * event)) (f : list Z) : list Z :=
  match h with
  | [] => f
  | (u, Wrote o l) :: h => written t h (if (u =? t)%nat then put o l f else f)
  | _ :: h => written t h f
  end.

(** Files are not numbered beyond [spare]. *)
Definition numbered (d : disk) : Prop := forall n i, entry d n = Some i -> i < spare d.
(** No function has reported a failure. *)
Definition no_failures (h : list (nat * event)) : Prop := forall t c, ~ In (t, Returned c false) h.

(** For the examples: the target contains 1 2 3. *)
Definition disk_example : disk := Disk (fun n => if n =? TARGET then Some 0 else None) (fun _ => [1; 2; 3]) 1.
(** Thread 0 makes an observation, and writes 4 5 6 7, and then 9 over the 5; some of it goes
    to the file; it makes a checkpoint; and it commits. Thread 1 opens the target before
    that, and reads it during and after; thread 2 reads it after. Thread 3 makes one and
    discards it; thread 4 dies during its commit. *)
Definition observation_example : list (nat * act) :=
  [(0%nat, Calls CREATE); (0%nat, MakesTemp 7); (0%nat, Proceeds); (0%nat, Returns); (0%nat, Puts 0 [4; 5; 6; 7]); (0%nat, Transfers 2); (0%nat, Puts 1 [9]); (0%nat, Calls CHECKPOINT); (0%nat, Proceeds); (0%nat, Transfers 2); (0%nat, Transfers 1); (0%nat, Proceeds); (0%nat, Stamps 20); (0%nat, Returns);
   (1%nat, Opens); (1%nat, Transfers 1); (0%nat, Puts 4 [8]); (0%nat, Calls COMMIT); (0%nat, Transfers 1); (1%nat, Transfers 1); (0%nat, Proceeds);
   (4%nat, Calls CREATE); (4%nat, MakesTemp 8); (4%nat, Proceeds); (4%nat, Returns); (4%nat, Puts 0 [1; 1; 1; 1]); (4%nat, Calls COMMIT); (4%nat, Transfers 3); (4%nat, Crashes); (0%nat, Proceeds); (1%nat, Transfers 1); (2%nat, Opens); (0%nat, Returns); (1%nat, Proceeds); (2%nat, Transfers 5);
   (3%nat, Calls CREATE); (3%nat, MakesTemp 7); (3%nat, Proceeds); (3%nat, Returns); (3%nat, Puts 0 [5; 5]); (3%nat, Calls DISCARD); (3%nat, Transfers 2); (3%nat, Proceeds); (3%nat, Proceeds); (3%nat, Returns); (2%nat, Proceeds)].
(** Thread 0 writes 4 5, makes a checkpoint, writes 6 7, and commits. *)
Definition checkpoint_example : list (nat * act) :=
  [(0%nat, Calls CREATE); (0%nat, MakesTemp 7); (0%nat, Proceeds); (0%nat, Returns); (0%nat, Puts 0 [4; 5]); (0%nat, Calls CHECKPOINT); (0%nat, Proceeds); (0%nat, Transfers 2); (0%nat, Proceeds); (0%nat, Stamps 20); (0%nat, Returns);
   (0%nat, Puts 2 [6; 7]); (0%nat, Calls COMMIT); (0%nat, Transfers 2); (0%nat, Proceeds); (0%nat, Proceeds); (0%nat, Returns)].
(** Its commit fails: the renaming does; it calls commit again. *)
Definition retry_example : list (nat * act) :=
  [(0%nat, Calls CREATE); (0%nat, MakesTemp 7); (0%nat, Proceeds); (0%nat, Returns); (0%nat, Puts 0 [4; 5]); (0%nat, Calls COMMIT); (0%nat, Transfers 2); (0%nat, Proceeds); (0%nat, Fails); (0%nat, Returns); (0%nat, Calls COMMIT)].
(** fdopen fails in create. *)
Definition create_example : list (nat * act) := [(0%nat, Calls CREATE); (0%nat, MakesTemp 7); (0%nat, Fails); (0%nat, Returns)].
