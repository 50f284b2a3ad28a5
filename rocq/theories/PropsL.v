(** Property theorems, part L. *)
From stdpp Require Import base numbers list list_numbers.
From Coq Require Import Lia.
From Verif Require Import Prio Heap State Model Lib Spec Witness ClaimsA OrderSpec ClaimsL.

(** ** C10.  Full statement: for every execution in which only default-priority messages are sent, no send is ever blocked,
    one receive future exists at a time and no waiting receive future is dropped, messages are received in the order in
    which they were accepted.  It is false (see [C10_send_order_refuted]), already if at most four messages are ever
    queued.  It holds if at most three are. *)
Theorem C10_short_queue_partial : ∀ c ops m n, let s := run (init c) ops in
  orderly 3 c ops → default_priorities s → none_blocked s → before (EvAccept m) (EvAccept n) s →
  (∀ q r x y, um_id x = m → um_id y = n → ¬ before (EvRecv q (ToOne y)) (EvRecv r (ToOne x)) s) ∧
  (∀ r y, um_id y = n → happened (EvRecv r (ToOne y)) s → in_queue m s = 0).
Proof. exact c10_short. Qed.
Print Assumptions C10_short_queue_partial.
Example C10_short_queue_example : let s := run (init None) p_three in
  orderly 3 None p_three ∧ default_priorities s ∧ none_blocked s ∧ before (EvAccept 0) (EvAccept 1) s ∧ before (EvAccept 2) (EvAccept 3) s ∧
  happened (EvRecv 4 (ToOne (UM 3 0))) s ∧ in_queue 4 s = 1.
Proof.
  split; [apply ordb_spec; vm|]. split; [apply default_spec; vm|]. split; [apply none_blocked_spec; vm|].
  split; [apply (before_spec 14 17); [lia|vm|vm]|]. split; [apply (before_spec 7 10); [lia|vm|vm]|]. split; [apply (happened_spec 0); vm|vm].
Qed.
Theorem C10_four_refuted : ∃ ops m n, let s := run (init None) ops in
  orderly 4 None ops ∧ default_priorities s ∧ none_blocked s ∧ before (EvAccept m) (EvAccept n) s ∧
  ∃ q r x y, um_id x = m ∧ um_id y = n ∧ before (EvRecv q (ToOne y)) (EvRecv r (ToOne x)) s.
Proof. exact c10_four. Qed.
Print Assumptions C10_four_refuted.
