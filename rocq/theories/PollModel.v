(** Model of diminuto_poll.c and its header: multiplexing with ppoll(2), on top of
    diminuto_mux.c. Not modelled: the conversion of the timeout, log output, errno, dumps,
    diminuto_poll_fini, the signals (which are those of the multiplexer). *)

From Coq Require Import ZArith List Bool.
From Verif Require Import CInt CUtil MuxModel.
Import ListNotations.
Local Open Scope Z_scope.

(** <poll.h>, outside the code. *)
Definition POLLIN := 1. Definition POLLPRI := 2. Definition POLLOUT := 4. Definition POLLERR := 8. Definition POLLHUP := 16. Definition POLLNVAL := 32.
Record slot := Slot { s_fd : Z; s_events : Z; s_revents : Z }.

(** inc/com/diag/diminuto/diminuto_poll.h:57-64 diminuto_poll_t. [slots] is the array
    [pollfd], of [nfds] elements, [None] for those that have never been written. *)
Record poller := Poller { p_mux : mux; slots : list (option slot); p_min : Z; p_max : Z; refresh : bool }.
Definition with_mux (p : poller) (m : mux) : poller := Poller m (slots p) (p_min p) (p_max p) (refresh p).

(** src/diminuto_poll.c:31-40 diminuto_poll_init. *)
Definition poll_init (mask : Z) : poller := Poller (mux_init mask) [] MOSTPOSITIVE MOSTNEGATIVE false.

(** inc/com/diag/diminuto/diminuto_poll.h:90-158 diminuto_poll_register_read and its
    siblings; 177-241 diminuto_poll_unregister_read and its siblings. *)
Definition poll_register (p : poller) (w : which) (fd : Z) : option (poller * Z) :=
  let* '(m, rc) := mux_register (p_mux p) w fd in
  Some (Poller m (slots p) (p_min p) (p_max p) (if rc >=? 0 then true else refresh p), rc).
Definition poll_unregister (p : poller) (w : which) (fd : Z) : option (poller * Z) :=
  let* '(m, rc) := mux_unregister (p_mux p) w fd in
  Some (Poller m (slots p) (p_min p) (p_max p) (if rc >=? 0 then true else refresh p), rc).
(** inc/com/diag/diminuto/diminuto_poll.h:331-333 diminuto_poll_close. *)
Definition poll_close (p : poller) (fd closed : Z) : option (poller * Z) :=
  let* '(m, rc) := mux_close (p_mux p) fd closed in Some (with_mux p m, rc).
(** inc/com/diag/diminuto/diminuto_poll.h:283-322 diminuto_poll_ready_read and its siblings. *)
Definition poll_ready (p : poller) (w : which) : option (poller * Z) :=
  let* '(m, fd) := mux_ready (p_mux p) w in Some (with_mux p m, fd).

(** src/diminuto_poll.c:53-57 poll_bounds. *)
Definition poll_bounds (b : Z * Z) (s : mset) : Z * Z :=
  (if min s <? fst b then min s else fst b, if max s >? snd b then max s else snd b).

(** An element of the array, to read; to write, which may be outside the array. A read of
    one that was never written is undefined, too. *)
Definition slot_at (l : list (option slot)) (i : Z) : option slot :=
  if i <? 0 then None else match nth_error l (Z.to_nat i) with Some (Some s) => Some s | _ => None end.
Definition slot_put (l : list (option slot)) (i : Z) (s : slot) : option (list (option slot)) :=
  if (i <? 0) || (Z.of_nat (length l) <=? i) then None else Some (firstn (Z.to_nat i) l ++ Some s :: skipn (S (Z.to_nat i)) l).

(** src/diminuto_poll.c:59-72 poll_before: the loop, for [n] descriptors from [fd]. *)
Fixpoint before_loop (n : nat) (fd : Z) (act : fdset) (lo mask : Z) (l : list (option slot)) : option (list (option slot)) :=
  match n with
  | O => Some l
  | S n =>
    let* isset := fd_isset fd act in
    let* l :=
      if isset : bool then
        let* s := slot_at l (fd - lo) in
        slot_put l (fd - lo) (Slot fd (Z.lor (s_events s) mask) (s_revents s))
      else Some l in
    before_loop n (fd + 1) act lo mask l
  end.
Definition poll_before (lo : Z) (s : mset) (mask : Z) (l : list (option slot)) : option (list (option slot)) :=
  if max s >=? 0 then before_loop (Z.to_nat (max s - min s + 1)) (min s) (active s) lo mask l else Some l.

(** src/diminuto_poll.c:74-90 poll_after: what is ready of a set, likewise. *)
Fixpoint after_loop (n : nat) (fd lo mask : Z) (l : list (option slot)) (rdy : fdset) : option fdset :=
  match n with
  | O => Some rdy
  | S n =>
    let* s := slot_at l (fd - lo) in
    let* rdy :=
      if s_fd s <? 0 then Some rdy
      else if Z.land (s_revents s) mask =? 0 then fd_clr fd rdy
      else fd_set fd rdy in
    after_loop n (fd + 1) lo mask l rdy
  end.
Definition poll_after (lo : Z) (s : mset) (mask : Z) (l : list (option slot)) : option mset :=
  if max s >=? 0 then let* rdy := after_loop (Z.to_nat (max s - min s + 1)) (min s) lo mask l (ready s) in Some (with_ready s rdy) else Some s.

(** The event of each purpose: src/diminuto_poll.c:128-132, 147-151. *)
Definition event (w : which) : Z := match w with READ | ACCEPT => POLLIN | WRITE => POLLOUT | URGENT | INTERRUPT => POLLPRI end.

(** ppoll(2), outside the code: given what is asked for it returns a number and what
    happened. *)
Definition ppoll_t := list (Z * Z) -> Z * list Z.
(** What the array asks for; undefined if some of it was never written. *)
Fixpoint asked (l : list (option slot)) : option (list (Z * Z)) :=
  match l with
  | [] => Some []
  | None :: _ => None
  | Some s :: l => let* a := asked l in Some ((s_fd s, s_events s) :: a)
  end.
Fixpoint answered (l : list (option slot)) (r : list Z) : list (option slot) :=
  match l, r with
  | Some s :: l, e :: r => Some (Slot (s_fd s) (s_events s) e) :: answered l r
  | l, _ => l
  end.

(** src/diminuto_poll.c:92-168 diminuto_poll_wait_generic: the result, and how ppoll was
    called if it was. [memory]: whether diminuto_heap_realloc succeeds, if it is called; the
    code does not check that. *)
Definition poll_wait (p : poller) (memory : bool) (ppoll : ppoll_t) (ticks : Z) : option (poller * Z * option (list (Z * Z))) :=
  let m := p_mux p in
  (* 101-108 *)
  let '(lo, hi) := fold_left poll_bounds (map (sets m) [READ; WRITE; ACCEPT; URGENT; INTERRUPT]) (MOSTPOSITIVE, MOSTNEGATIVE) in
  (* 110 *)
  let nfds := if lo <=? hi then hi - lo + 1 else 0 in
  (* 112-115 *)
  let grow := nfds >? Z.of_nat (length (slots p)) in
  if grow && negb memory then None else
  let l := if grow then slots p ++ repeat None (Z.to_nat nfds - length (slots p)) else slots p in
  (* 117-134 *)
  let* '(l, refresh) :=
    if nfds <=? 0 then Some (l, refresh p)
    else if negb (refresh p) then Some (l, refresh p)
    else
      let l := map (fun _ => Some (Slot (-1) 0 0)) l in
      let* l := poll_before lo (sets m READ) POLLIN l in
      let* l := poll_before lo (sets m WRITE) POLLOUT l in
      let* l := poll_before lo (sets m ACCEPT) POLLIN l in
      let* l := poll_before lo (sets m URGENT) POLLPRI l in
      let* l := poll_before lo (sets m INTERRUPT) POLLPRI l in
      Some (l, false) in
  (* 142-165 *)
  if (nfds >? 0) || (ticks >=? 0) then
    let* a := asked (firstn (Z.to_nat nfds) l) in
    let '(rc, r) := ppoll a in
    let l := answered l (firstn (Z.to_nat nfds) r) in
    if rc >? 0 then
      let* sr := poll_after lo (sets m READ) POLLIN l in
      let* sw := poll_after lo (sets m WRITE) POLLOUT l in
      let* sa := poll_after lo (sets m ACCEPT) POLLIN l in
      let* su := poll_after lo (sets m URGENT) POLLPRI l in
      let* si := poll_after lo (sets m INTERRUPT) POLLPRI l in
      let m := Mux (read_or_accept m) (urgent_or_interrupt m)
        (fun w => set_reset match w with READ => sr | WRITE => sw | ACCEPT => sa | URGENT => su | INTERRUPT => si end) (mask m) in
      Some (Poller m l lo hi refresh, rc, Some a)
    else Some (Poller m l lo hi refresh, rc, Some a)
  else Some (Poller m l lo hi refresh, 0, None).

(** A history of calls, with what the system answers. *)
Inductive pop := PRegister (w : which) (fd : Z) | PUnregister (w : which) (fd : Z) | PClose (fd closed : Z) | PWait (memory : bool) (ppoll : ppoll_t) (ticks : Z) | PReady (w : which).
(** What a call shows: its result, and how ppoll was called. *)
Record pseen := PSeen { p_result : Z; p_called : option (list (Z * Z)) }.
Definition poll_step (p : poller) (o : pop) : option (poller * pseen) :=
  match o with
  | PRegister w fd => let* '(p, rc) := poll_register p w fd in Some (p, PSeen rc None)
  | PUnregister w fd => let* '(p, rc) := poll_unregister p w fd in Some (p, PSeen rc None)
  | PClose fd closed => let* '(p, rc) := poll_close p fd closed in Some (p, PSeen rc None)
  | PWait memory ppoll ticks => let* '(p, rc, c) := poll_wait p memory ppoll ticks in Some (p, PSeen rc c)
  | PReady w => let* '(p, fd) := poll_ready p w in Some (p, PSeen fd None)
  end.
Fixpoint poll_run (p : poller) (ops : list pop) : option (poller * list pseen) :=
  match ops with
  | [] => Some (p, [])
  | o :: ops => let* '(p, r) := poll_step p o in let* '(p, rs) := poll_run p ops in Some (p, r :: rs)
  end.
