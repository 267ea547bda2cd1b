(** Model of diminuto_mux.c and of its two headers: multiplexing with pselect(2). Not
    modelled: the conversion of the timeout, log output, errno, dumps. *)

From Coq Require Import ZArith List Bool.
From Verif Require Import CInt CUtil.
Import ListNotations.
Local Open Scope Z_scope.

(** A set of descriptors, fd_set: an array of FD_SETSIZE bits, of which an access outside
    is undefined. *)
Definition FD_SETSIZE : Z := 1024.
Definition fdset := Z.
Definition in_set_size (fd : Z) : bool := (0 <=? fd) && (fd <? FD_SETSIZE).
Definition fd_isset (fd : Z) (s : fdset) : option bool := if in_set_size fd then Some (Z.testbit s fd) else None.
Definition fd_set (fd : Z) (s : fdset) : option fdset := if in_set_size fd then Some (Z.setbit s fd) else None.
Definition fd_clr (fd : Z) (s : fdset) : option fdset := if in_set_size fd then Some (Z.clearbit s fd) else None.

(** src/diminuto_mux.h:25-41 *)
Definition MOSTPOSITIVE : Z := 2147483647.
Definition MOSTNEGATIVE : Z := -2147483648.

(** inc/com/diag/diminuto/diminuto_mux.h:69-75 diminuto_mux_set_t. *)
Record mset := MSet { active : fdset; ready : fdset; min : Z; max : Z; next : Z }.
(** src/diminuto_mux.h:48-57 diminuto_mux_set_init. *)
Definition set_init : mset := MSet 0 0 MOSTPOSITIVE MOSTNEGATIVE (-1).

(** inc/com/diag/diminuto/diminuto_mux.h:80-89 diminuto_mux_t. The sets are a function of
    their names; a pointer to one of them is its name. The signal mask is a set of
    signal numbers. *)
Inductive which := READ | WRITE | ACCEPT | URGENT | INTERRUPT.
Definition which_eqb (a b : which) : bool :=
  match a, b with READ, READ | WRITE, WRITE | ACCEPT, ACCEPT | URGENT, URGENT | INTERRUPT, INTERRUPT => true | _, _ => false end.
Record mux := Mux { read_or_accept : fdset; urgent_or_interrupt : fdset; sets : which -> mset; mask : Z }.
Definition with_set (m : mux) (w : which) (s : mset) : mux :=
  Mux (read_or_accept m) (urgent_or_interrupt m) (fun v => if which_eqb v w then s else sets m v) (mask m).

(** src/diminuto_mux.c:22-43 diminuto_mux_init, the call that gets the mask returning
    this one. *)
Definition mux_init (mask : Z) : mux := Mux 0 0 (fun _ => set_init) mask.

(** src/diminuto_mux.c:45-68 diminuto_mux_register; 70-93, which name the set. *)
Definition mux_register (m : mux) (w : which) (fd : Z) : option (mux * Z) :=
  let s := sets m w in
  if negb ((0 <=? fd) && (fd <? FD_SETSIZE)) then Some (m, -1)
  else
    let* isset := fd_isset fd (active s) in
    if isset : bool then Some (m, -1)
    else
      let* act := fd_set fd (active s) in
      let* rdy := fd_clr fd (ready s) in
      let* roa := if which_eqb w READ then fd_set fd (read_or_accept m) else Some (read_or_accept m) in
      let* roa := if which_eqb w ACCEPT then fd_set fd roa else Some roa in
      let* uoi := if which_eqb w URGENT then fd_set fd (urgent_or_interrupt m) else Some (urgent_or_interrupt m) in
      let* uoi := if which_eqb w INTERRUPT then fd_set fd uoi else Some uoi in
      let lo := if fd <? min s then fd else min s in
      let hi := if fd >? max s then fd else max s in
      Some (with_set (Mux roa uoi (sets m) (mask m)) w (MSet act rdy lo hi (next s)), fd).

(** src/diminuto_mux.c:103-108, the loop, for [n] descriptors from [fd]. *)
Fixpoint bound_loop (n : nat) (fd : Z) (act : fdset) (lo hi : Z) : option (Z * Z) :=
  match n with
  | O => Some (lo, hi)
  | S n =>
    let* isset := fd_isset fd act in
    let lo := if (isset : bool) && (fd <? lo) then fd else lo in
    let hi := if isset && (fd >? hi) then fd else hi in
    bound_loop n (fd + 1) act lo hi
  end.
(** src/diminuto_mux.c:95-111 diminuto_mux_set_bound. *)
Definition set_bound (s : mset) : option mset :=
  let* '(lo, hi) := bound_loop (Z.to_nat (max s - min s + 1)) (min s) (active s) MOSTPOSITIVE MOSTNEGATIVE in
  Some (MSet (active s) (ready s) lo hi (next s)).
(** src/diminuto_mux.c:113-126 diminuto_mux_set_normalize. *)
Definition set_normalize (s : mset) : mset :=
  let n :=
    if next s <? 0 then next s
    else if max s <? 0 then -1
    else if next s <? min s then min s
    else if next s >? max s then min s
    else next s in
  MSet (active s) (ready s) (min s) (max s) n.

(** src/diminuto_mux.c:128-166 diminuto_mux_unregister; 168-191, which name the set.
    ([silent] only matters to the log and to errno.) *)
Definition mux_unregister (m : mux) (w : which) (fd : Z) : option (mux * Z) :=
  let s := sets m w in
  if negb ((0 <=? fd) && (fd <? FD_SETSIZE)) then Some (m, -1)
  else
    let* isset := fd_isset fd (active s) in
    if isset : bool then
      let* act := fd_clr fd (active s) in
      let* rdy := fd_clr fd (ready s) in
      let* roa := if which_eqb w READ then fd_clr fd (read_or_accept m) else Some (read_or_accept m) in
      let* roa := if which_eqb w ACCEPT then fd_clr fd roa else Some roa in
      let* uoi := if which_eqb w URGENT then fd_clr fd (urgent_or_interrupt m) else Some (urgent_or_interrupt m) in
      let* uoi := if which_eqb w INTERRUPT then fd_clr fd uoi else Some uoi in
      let* s := set_bound (MSet act rdy (min s) (max s) (next s)) in
      Some (with_set (Mux roa uoi (sets m) (mask m)) w (set_normalize s), fd)
    else Some (m, -1).

(** src/diminuto_mux.c:193-210 diminuto_mux_register_signal, 212-229
    diminuto_mux_unregister_signal. Signals are 1 to 64; sigismember(3), sigaddset(3)
    and sigdelset(3) fail for other numbers. *)
Definition valid_signal (signum : Z) : bool := (1 <=? signum) && (signum <=? 64).
Definition register_signal (m : mux) (signum : Z) : mux * Z :=
  if negb (valid_signal signum) then (m, -1)
  else if Z.testbit (mask m) signum then (m, -1)
  else (Mux (read_or_accept m) (urgent_or_interrupt m) (sets m) (Z.setbit (mask m) signum), signum).
Definition unregister_signal (m : mux) (signum : Z) : mux * Z :=
  if negb (valid_signal signum) then (m, -1)
  else if negb (Z.testbit (mask m) signum) then (m, -1)
  else (Mux (read_or_accept m) (urgent_or_interrupt m) (sets m) (Z.clearbit (mask m) signum), 0).

(** src/diminuto_mux.h:85-88 diminuto_mux_set_census, 96-105 diminuto_mux_set_reset. *)
Definition census (s : mset) (nfds : Z) : Z := if nfds <=? max s then max s + 1 else nfds.
Definition set_reset (s : mset) : mset :=
  if next s >=? 0 then s
  else if max s <? 0 then s
  else MSet (active s) (ready s) (min s) (max s) (min s).
Definition with_ready (s : mset) (rdy : fdset) : mset := MSet (active s) rdy (min s) (max s) (next s).

(** pselect(2), outside the code: called with a number and three sets, it returns a number
    and leaves three sets. *)
Record call := Call { c_nfds : Z; c_read : fdset; c_write : fdset; c_except : fdset }.
Record answer := Answer { a_rc : Z; a_read : fdset; a_write : fdset; a_except : fdset }.
Definition pselect_t := call -> answer.

(** src/diminuto_mux.c:240-244: the number for pselect. *)
Definition mux_nfds (m : mux) : Z :=
  census (sets m INTERRUPT) (census (sets m URGENT) (census (sets m ACCEPT) (census (sets m WRITE) (census (sets m READ) 0)))).
(** src/diminuto_mux.c:231-310 diminuto_mux_wait_generic: the result, and how pselect was
    called if it was. *)
Definition mux_wait (pselect : pselect_t) (m : mux) (ticks : Z) : mux * Z * option call :=
  let nfds := mux_nfds m in
  if (nfds >? 0) || negb (ticks =? 0) then
    let c := Call nfds (read_or_accept m) (active (sets m WRITE)) (urgent_or_interrupt m) in
    let a := pselect c in
    let m := with_set m WRITE (with_ready (sets m WRITE) (a_write a)) in
    let m :=
      if a_rc a >? 0 then
        Mux (read_or_accept m) (urgent_or_interrupt m)
          (fun w => set_reset
            match w with
            | READ | ACCEPT => with_ready (sets m w) (a_read a)
            | URGENT | INTERRUPT => with_ready (sets m w) (a_except a)
            | WRITE => sets m w
            end) (mask m)
      else m in
    (m, a_rc a, Some c)
  else (m, 0, None).

(** src/diminuto_mux.c:326-334, the loop: [None] is an access outside a set (or a loop of
    more iterations than there are descriptors). *)
Fixpoint ready_loop (fuel : nat) (s : mset) (wrapped : Z) : option (mset * Z) :=
  match fuel with
  | O => None
  | S fuel =>
    let* isready := fd_isset (next s) (ready s) in
    let* '(rdy, fd) :=
      if isready : bool then
        let* isactive := fd_isset (next s) (active s) in
        let fd := if isactive : bool then next s else -1 in
        let* rdy := fd_clr fd (ready s) in Some (rdy, fd)
      else Some (ready s, -1) in
    let n := if next s <? max s then next s + 1 else min s in
    let s := MSet (active s) rdy (min s) (max s) n in
    if (fd <? 0) && negb (n =? wrapped) then ready_loop fuel s wrapped else Some (s, fd)
  end.
(** src/diminuto_mux.c:312-341 diminuto_mux_set_ready; 343-366, which name the set. *)
Definition set_ready (s : mset) : option (mset * Z) :=
  let wrapped := next s in
  if wrapped >=? 0 then
    let* '(s, fd) := ready_loop (Z.to_nat FD_SETSIZE) s wrapped in
    Some (if fd <? 0 then MSet (active s) (ready s) (min s) (max s) (-1) else s, fd)
  else Some (s, -1).
Definition mux_ready (m : mux) (w : which) : option (mux * Z) :=
  let* '(s, fd) := set_ready (sets m w) in Some (with_set m w s, fd).

(** src/diminuto_mux.c:368-403 diminuto_mux_close: the result; [closed] is what close(2)
    returns, which is always called. *)
Definition mux_close (m : mux) (fd closed : Z) : option (mux * Z) :=
  let* '(m, accepting) := mux_unregister m ACCEPT fd in
  let* '(m, reading) := mux_unregister m READ fd in
  let* '(m, writing) := mux_unregister m WRITE fd in
  let* '(m, urgenting) := mux_unregister m URGENT fd in
  let* '(m, interrupting) := mux_unregister m INTERRUPT fd in
  let rc := if (accepting <? 0) && (reading <? 0) && (writing <? 0) && (urgenting <? 0) && (interrupting <? 0) then -2 else 0 in
  let rc := if closed <? 0 then -1 else rc in
  Some (m, rc).

(** A history of calls, with what the system answers. *)
Inductive mop := Register (w : which) (fd : Z) | Unregister (w : which) (fd : Z) | Close (fd closed : Z) | Wait (pselect : pselect_t) (ticks : Z) | Ready (w : which)
  | RegisterSignal (signum : Z) | UnregisterSignal (signum : Z).
(** What a call shows: its result, and how pselect was called. *)
Record seen := Seen { result : Z; called : option call }.
Definition mux_step (m : mux) (o : mop) : option (mux * seen) :=
  match o with
  | Register w fd => let* '(m, rc) := mux_register m w fd in Some (m, Seen rc None)
  | Unregister w fd => let* '(m, rc) := mux_unregister m w fd in Some (m, Seen rc None)
  | Close fd closed => let* '(m, rc) := mux_close m fd closed in Some (m, Seen rc None)
  | Wait pselect ticks => let '(m, rc, c) := mux_wait pselect m ticks in Some (m, Seen rc c)
  | Ready w => let* '(m, fd) := mux_ready m w in Some (m, Seen fd None)
  | RegisterSignal signum => let '(m, rc) := register_signal m signum in Some (m, Seen rc None)
  | UnregisterSignal signum => let '(m, rc) := unregister_signal m signum in Some (m, Seen rc None)
  end.
Fixpoint mux_run (m : mux) (ops : list mop) : option (mux * list seen) :=
  match ops with
  | [] => Some (m, [])
  | o :: ops => let* '(m, r) := mux_step m o in let* '(m, rs) := mux_run m ops in Some (m, r :: rs)
  end.
