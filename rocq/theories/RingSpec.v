(** What a ring is: two counters that never wrap. The k-th item ever produced
    lives in slot k mod capacity. *)

From Coq Require Import ZArith List.
From Verif Require Import CInt RingModel.
Import ListNotations.
Local Open Scope Z_scope.

(** Number of items produced and consumed so far, net of revocations. *)
Record counters := Counters { produced : Z; consumed : Z }.

Definition outstanding (q : counters) : Z := produced q - consumed q.

Definition spec_apply (cap : Z) (q : counters) (c : call) : counters * Z :=
  match c with
  | Produce n =>
      if outstanding q + n <=? cap
      then (Counters (produced q + n) (consumed q), produced q mod cap) else (q, -1)
  | ProduceRevoke n =>
      if n <=? outstanding q then (Counters (produced q - n) (consumed q), n) else (q, -1)
  | Consume n =>
      if n <=? outstanding q
      then (Counters (produced q) (consumed q + n), consumed q mod cap) else (q, -1)
  | ConsumeRevoke n =>
      if outstanding q + n <=? cap then (Counters (produced q) (consumed q - n), n) else (q, -1)
  end.

Fixpoint spec_run (cap : Z) (q : counters) (cs : list call) : counters * list Z :=
  match cs with
  | [] => (q, [])
  | c :: cs =>
      let '(q, x) := spec_apply cap q c in
      let '(q, xs) := spec_run cap q cs in (q, x :: xs)
  end.

(** Requests for which the unsigned and signed arithmetic is exact. *)
Definition call_ok (c : call) : Prop :=
  match c with Produce n | ProduceRevoke n | Consume n | ConsumeRevoke n => 0 <= n < 2147483648 end.
