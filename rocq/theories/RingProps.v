(** Property C13. *)

From Coq Require Import ZArith List Bool Lia.
From Verif Require Import CInt RingModel RingSpec RingProofs.
Import ListNotations.
Local Open Scope Z_scope.

(** The ring is the pair of unbounded counters: every history of calls gives
    the results of the specification, refusing exactly what does not fit, and
    used plus free is always the capacity. *)
Theorem C13_ring_refines_counters : forall cap cs,
  1 <= cap <= 2147483648 -> Forall call_ok cs ->
  exists r, run (init cap) cs = Some (r, snd (spec_run cap (Counters 0 0) cs)) /\
    let q := fst (spec_run cap (Counters 0 0) cs) in
    used r = outstanding q /\ free r = cap - outstanding q /\ used r + free r = cap /\
    0 <= outstanding q <= cap /\
    consumer_peek r = if 1 <=? outstanding q then consumed q mod cap else -1.
Proof. exact ring_refines. Qed.
Print Assumptions C13_ring_refines_counters.

(** In the specification no two outstanding items share a slot. *)
Theorem C13_slots_distinct : forall cap i j,
  0 < cap -> 0 <= j - i < cap -> i mod cap = j mod cap -> i = j.
Proof. exact slots_distinct. Qed.
Print Assumptions C13_slots_distinct.

(** A refused call changes nothing. *)
Theorem C13_refusal : forall r c r', apply r c = Some (r', -1) ->
  is_u32 (producer r) -> is_u32 (consumer r) -> producer r <> 4294967295 -> consumer r <> 4294967295 ->
  call_ok c -> r' = r.
Proof. exact refusal. Qed.
Print Assumptions C13_refusal.

(** Used as an index into an array of any type, the ring is a first in first
    out queue: whatever the batches put and got, the items accepted are, in
    order, the items fetched followed by the items still in the ring. *)
Theorem C13_array_is_fifo : forall (T : Type) cap (mem : Z -> T) es,
  1 <= cap <= 2147483648 -> Forall event_ok es ->
  exists r accepted fetched pending,
    session (init cap) mem es = Some (r, accepted, fetched) /\
    accepted = fetched ++ pending /\ Z.of_nat (length pending) = used r /\ used r <= cap.
Proof.
  intros T cap mem es Hc Hok.
  destruct (session_spec cap Hc es (init cap) (Counters 0 0) mem [] Hok (good_init cap mem Hc))
    as (r & a & f & p & E & A & U). exists r, a, f, p. auto.
Qed.
Print Assumptions C13_array_is_fifo.

(** The unrestricted claim is false: a request near 2^32 wraps and is granted
    although it exceeds the capacity. *)
Theorem C13_huge_request_refuted : exists r1 r2,
  apply (init 16) (Produce 8) = Some (r1, 0) /\
  apply r1 (Produce 4294967295) = Some (r2, 8) /\ used r2 = 7.
Proof. exact huge_request_wraps. Qed.
Print Assumptions C13_huge_request_refuted.

Example C13_example :
  Forall call_ok [Produce 3; Consume 2; Produce 4; ConsumeRevoke 1; ProduceRevoke 2; Consume 5] /\
  option_map snd (run (init 5) [Produce 3; Consume 2; Produce 4; Produce 1; ConsumeRevoke 1; ProduceRevoke 2; Consume 5])
    = Some [0; 0; 3; -1; -1; 2; -1] /\
  option_map (fun x => (snd (fst x), snd x))
    (session (init 3) (fun _ => 0) [Put [1; 2]; Get 1; Put [3; 4; 5]; Put [6; 7]; Get 3])
    = Some ([1; 2; 6; 7], [1; 2; 6; 7]).
Proof.
  split; [repeat constructor; cbn; lia|]. split; vm_compute; reflexivity.
Qed.
