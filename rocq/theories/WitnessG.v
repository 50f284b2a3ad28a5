(** Concrete executions: scoped tasks. *)
From stdpp Require Import base numbers list.
From Verif Require Import Prio Heap State Model Lib Spec Scoped ScopedSpec.

Definition settle_sc (n : nat) : list sop := flat_map (λ _, map (λ t, SMain (Step t)) [0; 1; 2]) (seq 0 n).
(** Two tasks; both are polled while the actor lives, the inner future of the second one completes with 5. *)
Definition sc_ops1 : list sop := [SMain (AJoin 0); SMain (AJoin 0)] ++ settle_sc 4 ++
  [SScope 0; SScope 1; SPoll 0; SInner 0 None; SPoll 1; SInner 1 None; SPoll 1; SInner 1 (Some 5)].
(** ... then the only mailbox is dropped. *)
Definition sc_ops2 : list sop := sc_ops1 ++ [SMain (ADropHol 0)] ++ settle_sc 6.
