(** Property theorems, part K. *)
From stdpp Require Import base numbers list list_numbers.
From Coq Require Import Lia.
From Verif Require Import Reent ReentSpec Lib Witness ClaimsK.

(** ** C49.  Full statement: [∀ c ops, no_deadlock (rrun (rinit c) ops)].  It is false: the destructor of the last mailbox
    destroys queued (or waiting) messages with the lock held, and if one of them owns the last strong address, its
    destructor locks again, and waits forever.  It holds if no message owns a strong address of its own actor, and
    also as long as the program owns a strong address. *)
Theorem C49_deadlock_refuted : ∃ c ops t, let s := rrun (rinit c) ops in waits_for_itself s t ∧ ¬ no_deadlock s ∧
  ∀ ops', r_thr (rrun s ops') !! t = r_thr s !! t ∧ r_lock (rrun s ops') = Some t.
Proof. exact c49_refuted. Qed.
Print Assumptions C49_deadlock_refuted.
Theorem C49_deadlock_blocked_refuted : ∃ n ops t, let s := rrun (rinit (Some n)) ops in waits_for_itself s t ∧ r_queue s = [] ∧ ¬ no_deadlock s ∧
  ∀ ops', r_thr (rrun s ops') !! t = r_thr s !! t ∧ r_lock (rrun s ops') = Some t.
Proof. exact c49_blocked_refuted. Qed.
Print Assumptions C49_deadlock_blocked_refuted.
Theorem C49_no_strong_in_messages_partial : ∀ c ops, (∀ m b, RDoSend m b ∈ ops → strongs m = 0) → no_deadlock (rrun (rinit c) ops).
Proof. exact c49_light. Qed.
Print Assumptions C49_no_strong_in_messages_partial.
Theorem C49_program_keeps_address_partial : ∀ c ops, (∀ k, 0 < r_ext (rrun (rinit c) (take k ops))) → no_deadlock (rrun (rinit c) ops).
Proof. exact c49_ext. Qed.
Print Assumptions C49_program_keeps_address_partial.
Example C49_example :
  (∀ m b, RDoSend m b ∈ [RDoSend (PM [OWeak; OFuture false (PM [])]) true; RStep 0; RStep 0; RDropAddr; RMbDrop; RStep 2; RStep 2] → strongs m = 0) ∧
  r_lock (rrun (rinit None) [RDoSend (PM [OWeak; OFuture false (PM [])]) true; RStep 0; RStep 0; RDropAddr; RMbDrop; RStep 2; RStep 2]) = Some 2 ∧
  (∀ k, 0 < r_ext (rrun (rinit None) (take k [RDoSend (PM [OStrong]) true; RStep 0; RStep 0; RClone; RDropAddr; RMbDrop; RStep 2; RStep 2; RStep 2]))) ∧
  r_thr (rrun (rinit None) [RDoSend (PM [OStrong]) true; RStep 0; RStep 0; RClone; RDropAddr; RMbDrop; RStep 2; RStep 2; RStep 2]) !! 2 = Some [RUnlock].
Proof.
  split; [|split; [vm|split; [|vm]]].
  - intros m b H. repeat (apply elem_of_cons in H as [H|H]; [first [discriminate H|injection H as -> ->; done]|]). by apply elem_of_nil in H.
  - intros k. do 9 (destruct k as [|k]; [vm_compute; lia|]). destruct k; vm_compute; lia.
Qed.
