(** Model of bin/shaper.c and bin/shaperbuffered.c: utilities that copy standard input to
    standard output at a rate no higher than asked for. The rates measured are not modelled. *)

From Coq Require Import ZArith List Bool.
From Verif Require Import CInt CUtil ChecksumModel ThrottleModel.
Import ListNotations.
Local Open Scope Z_scope.

(** The options, bin/shaper.c:224-236 and bin/shaperbuffered.c:328-340: the peak rate, the
    sustained rate and the maximum burst size; none if they are refused. Zero is what they
    are if they are not given. *)
Definition options (peakrate sustainedrate maximumburstsize : Z) : option (Z * Z * Z) :=
  if sustainedrate =? 0 then Some (peakrate, peakrate, 0)
  else if peakrate =? 0 then Some (sustainedrate, sustainedrate, 0)
  else if maximumburstsize =? 0 then Some (sustainedrate, sustainedrate, maximumburstsize)
  else if sustainedrate >? peakrate then None
  else Some (peakrate, sustainedrate, maximumburstsize).

(** The shaper, bin/shaper.c:268-273. [jitter] is in ticks, after line 271. *)
Definition shaper_of (frequency peakrate sustainedrate maximumburstsize jitter epoch : Z) : shaper :=
  let peakincrement := interarrivaltime peakrate 1 frequency in
  let sustainedincrement := interarrivaltime sustainedrate 1 frequency in
  shaper_init peakincrement jitter sustainedincrement (bursttolerance peakincrement jitter sustainedincrement maximumburstsize) (u64 epoch).

(** Waiting, bin/shaper.c:326-340. [polls] are the times at which the clock is read, which
    is unbounded and shown modulo 2^64; the delays and yields are in between. None if the
    times end first. *)
Fixpoint wait (polls : list Z) (s : shaper) (size : Z) : option (shaper * Z * list Z) :=
  match polls with
  | [] => None
  | now :: polls =>
      let '(s, interval) := shaper_request s (u64 now) in
      if interval =? 0 then Some (fst (shaper_commitn s size), now, polls)
      else wait polls s size
  end.

(** What diminuto_fd_read_generic() does, lines 301-310. *)
Inductive event := Data (block : list Z) | End | Interrupted | Broken.

(** What is reported: lines 314-322. *)
Record report := Report { ios : Z; octets_ : Z; largest : Z; fletcher_a : Z; fletcher_b : Z }.
Definition account (r : report) (block : list Z) : report :=
  let size := Z.of_nat (length block) in
  let '(a, b) := fletcher_16 block (fletcher_a r) (fletcher_b r) in
  Report (u64 (ios r + 1)) (u64 (octets_ r + size)) (if size >? largest r then size else largest r) a b.

(** The loop of main(), bin/shaper.c:281-371: the exit code, what is written, when how much
    of it is, and the report. [writes] is what diminuto_fd_write() returns, which is the
    number of octets written, or 0 or -1 and nothing is. *)
Fixpoint shape (reads : list event) (writes : list Z) (polls : list Z) (s : shaper) (r : report) : option (Z * list Z * list (Z * Z) * report) :=
  match reads with
  | [] => None
  | End :: _ => Some (0, [], [], r)
  | Interrupted :: reads => shape reads writes polls s r
  | Broken :: _ => Some (3, [], [], r)
  | Data block :: reads =>
      let size := Z.of_nat (length block) in
      let r := account r block in
      let* '(s, now, polls) := wait polls s size in
      match writes with
      | [] => None
      | rc :: writes =>
          if rc >? 0 then
            let* '(xc, out, times, r) := shape reads writes polls s r in
            Some (xc, firstn (Z.to_nat rc) block ++ out, (now, size) :: times, r)
          else if rc =? 0 then Some (0, [], [(now, size)], r)
          else Some (4, [], [(now, size)], r)
      end
  end.

(** main() of bin/shaper.c after the options have been scanned. *)
Definition tool (frequency peakrate sustainedrate maximumburstsize jitter epoch : Z) (reads : list event) (writes polls : list Z) : option (Z * list Z * list (Z * Z) * report) :=
  let zero := Report 0 0 0 0 0 in
  match options peakrate sustainedrate maximumburstsize with
  | None => Some (1, [], [], zero)
  | Some (p, s, m) => shape reads writes polls (shaper_of frequency p s m jitter epoch) zero
  end.

(** * bin/shaperbuffered.c *)

Inductive io := Block | Character | Line.

(** fgets(3) with room for [n] octets and a NUL: those up to and with the new line; and
    whether it came to the end of the file. *)
Fixpoint fgets (n : nat) (stdin : list Z) : list Z * list Z * bool :=
  match n, stdin with
  | O, _ => ([], stdin, false)
  | S _, [] => ([], [], true)
  | S n, c :: stdin => if c =? 10 then ([c], stdin, false) else let '(l, rest, e) := fgets n stdin in (c :: l, rest, e)
  end.
Fixpoint strlen (s : list Z) : nat :=
  match s with [] => O | c :: s => if c =? 0 then O else S (strlen s) end.

(** input(), lines 117-157. [bad] is whether the file ends with an error rather than the end
    of the file. The size is one that fits an int. *)
Inductive got := Some_ (data rest : list Z) | Over | Fault.
Definition input (mode : io) (size : nat) (stdin : list Z) (bad : bool) : got :=
  let '(rc, buffer, rest, ended) :=
    match mode with
    | Block => (length (firstn size stdin), firstn size stdin, skipn size stdin, (length stdin <? size)%nat)
    | Character => match stdin with [] => (O, [], [], true) | c :: rest => (1%nat, [c], rest, false) end
    | Line => let '(l, rest, e) := fgets (size - 1) stdin in (strlen l, l, rest, e)
    end in
  if (0 <? rc)%nat then Some_ (firstn rc buffer) rest
  else if ended && negb bad then Over else Fault.

(** The loop of main(), lines 409-493, without the waiting, which is that of bin/shaper.c:
    the exit code and what is written. [ok] is whether the n-th output() succeeds; it writes
    what is in the buffer, in line mode up to the first NUL, or nothing. *)
Fixpoint copy (fuel : nat) (mode : io) (size : nat) (stdin : list Z) (bad : bool) (ok : nat -> bool) : option (Z * list Z) :=
  match fuel with
  | O => None
  | S fuel =>
      match input mode size stdin bad with
      | Over => Some (0, [])
      | Fault => Some (3, [])
      | Some_ data rest =>
          if ok O then
            let* '(xc, out) := copy fuel mode size rest bad (fun n => ok (S n)) in Some (xc, data ++ out)
          else Some (4, [])
      end
  end.
