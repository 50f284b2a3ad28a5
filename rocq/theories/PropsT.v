(** Property theorems, part T. *)
From stdpp Require Import base numbers list list_numbers.
From Verif Require Import Prio Heap State Model Spec PollSpec Witness WitnessM ClaimsT.

(** ** C58.  A receive future that was notified completes at its next poll.  It never returns Pending again, ... *)
Theorem C58_never_pending_partial : ∀ c l l' r k, notified (run (init c) l) r k → (k ≠ CNewBroadcast ∨ one_at_a_time c (l ++ l')) →
  ¬ newly (run (init c) l) (run (init c) (l ++ l')) (EvRecvPending r).
Proof. exact c58_never_pending. Qed.
Print Assumptions C58_never_pending_partial.
(** Full statement: without the condition that a mailbox has one receive future at a time, which is needed for broadcasts only. *)
Example C58_never_pending_example : notified (run (init None) l_told) 1 (CNewMsg (UM 0 0)) ∧ notified (run (init None) l_told_bc) 1 CNewBroadcast ∧
  one_at_a_time None (l_told_bc ++ [APollRecv 1; Step 2; Step 2]).
Proof. split_and!; [eexists _, _, _; by vm_compute..|]. apply one_time_spec. vm. Qed.
(** ... and its next poll is over, with what it was notified of, after at most two atomic actions, whatever happens between them. *)
Theorem C58_completes_partial : ∀ c l l' r k, notified (run (init c) l) r k → (k ≠ CNewBroadcast ∨ one_at_a_time c (l ++ APollRecv r :: l')) →
  2 ≤ turns (length (thr (run (init c) l))) l' → ∃ a, answers k a ∧ newly (run (init c) l) (run (init c) (l ++ APollRecv r :: l')) (EvRecv r a).
Proof. exact c58_completes. Qed.
Print Assumptions C58_completes_partial.
Example C58_completes_example : happened (EvRecv 1 (ToAll (BM 0 0))) (run (init None) (l_told_bc ++ APollRecv 1 :: [Step 2; ANext 0; Step 2])) ∧
  turns (length (thr (run (init None) l_told_bc))) [Step 2; ANext 0; Step 2] = 2.
Proof. split; [apply elem_of_list_In; vm_compute; tauto|vm]. Qed.
(** The first poll of a receive future completes in one action if there is something to receive. *)
Theorem C58_first_poll : ∀ s r h, reachable s → hols s !! r = Some h → h_st h = HRecvNew → offered s h →
  ∃ a, newly s (run s [APollRecv r; Step (length (thr s))]) (EvRecv r a).
Proof. exact c58_first_poll. Qed.
Print Assumptions C58_first_poll.
Example C58_first_poll_example : ∃ h, hols (run (init None) (ANext 0 :: [ASend 0; APollSend 0] ++ replicate 6 (Step 0))) !! 1 = Some h ∧
  h_st h = HRecvNew ∧ offered (run (init None) (ANext 0 :: [ASend 0; APollSend 0] ++ replicate 6 (Step 0))) h.
Proof. eexists. split; [by vm_compute|]. split; [done|]. left. by vm_compute. Qed.
(** Two receive futures of one mailbox can be notified of the same broadcast; one of them takes it, the other returns Pending. *)
Theorem C58_shared_mailbox_refuted : ∃ c l l' r k, notified (run (init c) l) r k ∧ newly (run (init c) l) (run (init c) (l ++ l')) (EvRecvPending r).
Proof. exact c58_refuted. Qed.
Print Assumptions C58_shared_mailbox_refuted.
(** The documented way to keep the order of messages: a final poll.  If a poll returns Pending and the future is dropped
    next, no message moves.  (Dropping the last object of the receiving side ends the actor: C27.) *)
Theorem C58_final_poll : ∀ s o r n, reachable s → newly s (step s o) (EvRecvPending r) → let z := step s o in 2 ≤ rxc z →
  unmoved z (run z (ADropHol r :: replicate n (Step (length (thr z))))).
Proof. exact c58_final_poll. Qed.
Print Assumptions C58_final_poll.
Example C58_final_poll_example : newly (run (init None) l_pending) (step (run (init None) l_pending) (Step 0)) (EvRecvPending 1) ∧
  rxc (step (run (init None) l_pending) (Step 0)) = 2 ∧
  hols (run (step (run (init None) l_pending) (Step 0)) (ADropHol 1 :: replicate 4 (Step 1))) !! 1 = Some (HO 0 HGone true 0) ∧
  quiet (run (step (run (init None) l_pending) (Step 0)) (ADropHol 1 :: replicate 4 (Step 1))).
Proof. split; [apply (newly_spec 0 1); vm|]. split; [vm|]. split; [vm|]. apply quietb_spec. vm. Qed.
(** It does not help against messages sent by other threads between the final poll and the drop. *)
Theorem C58_final_poll_race_refuted : ∃ s o r l m n, reachable s ∧ newly s (step s o) (EvRecvPending r) ∧ dropped_receivers l = 1 ∧ ADropHol r ∈ l ∧
  let z := run (step s o) l in default_priorities z ∧ no_broadcasts z ∧ before (EvAccept m) (EvAccept n) z ∧
  ∃ q q', before (EvRecv q (ToOne (UM n 0))) (EvRecv q' (ToOne (UM m 0))) z.
Proof. exact c58_race_refuted. Qed.
Print Assumptions C58_final_poll_race_refuted.
