(** Lemmas for the property theorems, part T. *)
From stdpp Require Import base numbers list list_numbers.
From Verif Require Import Prio Heap State Model Lib Spec Bridge PollSpec PollProofs FinalPoll Witness WitnessM.

Lemma c58_never_pending : ∀ c l l' r k, notified (run (init c) l) r k → (k ≠ CNewBroadcast ∨ one_at_a_time c (l ++ l')) →
  ¬ newly (run (init c) l) (run (init c) (l ++ l')) (EvRecvPending r).
Proof. exact one_poll. Qed.
Lemma c58_completes : ∀ c l l' r k, notified (run (init c) l) r k → (k ≠ CNewBroadcast ∨ one_at_a_time c (l ++ APollRecv r :: l')) →
  2 ≤ turns (length (thr (run (init c) l))) l' → ∃ a, answers k a ∧ newly (run (init c) l) (run (init c) (l ++ APollRecv r :: l')) (EvRecv r a).
Proof. exact two_actions. Qed.
Lemma c58_first_poll : ∀ s r h, reachable s → hols s !! r = Some h → h_st h = HRecvNew → offered s h →
  ∃ a, newly s (run s [APollRecv r; Step (length (thr s))]) (EvRecv r a).
Proof. intros s r h Hr%reachable_reach. by apply first_poll. Qed.
Lemma c58_refuted : ∃ c l l' r k, notified (run (init c) l) r k ∧ newly (run (init c) l) (run (init c) (l ++ l')) (EvRecvPending r).
Proof. exact shared_mailbox. Qed.
Lemma c58_final_poll : ∀ s o r n, reachable s → newly s (step s o) (EvRecvPending r) → let z := step s o in 2 ≤ rxc z →
  unmoved z (run z (ADropHol r :: replicate n (Step (length (thr z))))).
Proof. intros s o r n Hr%reachable_reach. by apply final_poll. Qed.
Lemma c58_race_refuted : ∃ s o r l m n, reachable s ∧ newly s (step s o) (EvRecvPending r) ∧ dropped_receivers l = 1 ∧ ADropHol r ∈ l ∧
  let z := run (step s o) l in default_priorities z ∧ no_broadcasts z ∧ before (EvAccept m) (EvAccept n) z ∧
  ∃ q q', before (EvRecv q (ToOne (UM n 0))) (EvRecv q' (ToOne (UM m 0))) z.
Proof. exact final_race. Qed.
