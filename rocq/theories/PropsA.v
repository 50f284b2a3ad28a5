(** Property theorems, part A.  Every statement uses only [State.v], the machine
    [step]/[run] of [Model.v] and the vocabulary of [Spec.v]. *)
From stdpp Require Import base numbers list list_numbers sorting.
From Verif Require Import Prio Heap State Model Spec Bridge Witness ClaimsA.

(** ** C01 *)
Theorem C01_at_most_once : ∀ s m, reachable s →
  times (received m) s ≤ 1 ∧ times (handled m) s ≤ times (received m) s ∧ times (finished m) s ≤ times (handled m) s.
Proof. exact c01. Qed.
Print Assumptions C01_at_most_once.
Example C01_example : reachable w_life ∧
  times (received 0) w_life = 1 ∧ times (handled 0) w_life = 1 ∧ times (finished 0) w_life = 1 ∧
  times (received 2) w_life = 1 ∧ times (handled 2) w_life = 1 ∧ times (finished 2) w_life = 0.
Proof. split; [exact reach_w_life|]. split_and!; vm. Qed.

(** ** C07 *)
Theorem C07_highest_priority : ∀ s t r h a, reachable s → next_action s t (UTryRecv r) → hols s !! r = Some h →
  newly s (step s (Step t)) (EvRecv r a) → may_take s (h_bq h) a.
Proof. exact c07. Qed.
Print Assumptions C07_highest_priority.
(** The receive completes at once exactly if something is queued for the mailbox or no strong handle is left. *)
Theorem C07_completes : ∀ s t r h, reachable s → next_action s t (UTryRecv r) → hols s !! r = Some h →
  (uq s ≠ [] ∨ backlog s (h_bq h) ≠ [] ∨ txc s = 0) ↔ ∃ a, newly s (step s (Step t)) (EvRecv r a).
Proof. exact c07_ready. Qed.
Print Assumptions C07_completes.
Example C07_example : reachable w_ties ∧ next_action w_ties 4 (UTryRecv 1) ∧
  length (uq w_ties) = 3 ∧ backlog w_ties 0 = [BM 0 5] ∧
  newly w_ties (step w_ties (Step 4)) (EvRecv 1 (ToOne (UM 1 5))).
Proof.
  split; [exact reach_w_ties|]. split; [by eexists; vm|]. split_and!; [vm|vm|]. apply (newly_spec 0 1); vm.
Qed.

(** ** C09 *)
Theorem C09_priority_order : ∀ b s l s', reachable s → drains b s l s' →
  (Shut ∉ l → pending_for s b ≡ₚ l ++ pending_for s' b) ∧
  (∀ a, a ∈ l → a ≠ Shut → a ∈ pending_for s b) ∧
  StronglySorted not_above l.
Proof. exact c09. Qed.
Print Assumptions C09_priority_order.
Example C09_example : reachable w_ties ∧
  ∃ s', drains 0 w_ties [ToOne (UM 1 5); ToAll (BM 0 5); ToOne (UM 0 3)] s'.
Proof.
  split; [exact reach_w_ties|]. eexists.
  eapply (drains_recv _ _ 4 1); [eexists; vm|vm|vm|vm|].
  apply drains_other with (o := ANext 0); [vm|vm|].
  apply drains_other with (o := APollRecv 2); [vm|vm|].
  eapply (drains_recv _ _ 5 2); [eexists; vm|vm|vm|vm|].
  apply drains_other with (o := ANext 0); [vm|vm|].
  apply drains_other with (o := APollRecv 3); [vm|vm|].
  eapply (drains_recv _ _ 6 3); [eexists; vm|vm|vm|vm|].
  apply drains_nil.
Qed.

(** ** C10: the default-priority queue is not first-in first-out. *)
Theorem C10_send_order_refuted : ∃ s m n, reachable s ∧ quiet s ∧ default_priorities s ∧ no_broadcasts s ∧
  before (EvAccept m) (EvAccept n) s ∧
  ∃ r q, before (EvHandle r (ToOne (UM n 0))) (EvHandle q (ToOne (UM m 0))) s.
Proof. exact c10_refuted. Qed.
Print Assumptions C10_send_order_refuted.

(** ** C11: the priority part; the first-come-first-served part is refuted below. *)
Theorem C11_admission_partial : ∀ s t r m, reachable s → next_action s t (UTryRecv r) →
  newly s (step s (Step t)) (EvAccept m) →
  ∃ k, um_id k = m ∧ blocked_msg s k ∧ ∀ k', blocked_msg s k' → ple (um_prio k') (um_prio k).
Proof. exact c11. Qed.
Print Assumptions C11_admission_partial.
Example C11_example : reachable w_blocked3 ∧ next_action w_blocked3 3 (UTryRecv 1) ∧
  newly w_blocked3 (step w_blocked3 (Step 3)) (EvAccept 1) ∧
  blocked_msg w_blocked3 (UM 1 4) ∧ blocked_msg w_blocked3 (UM 2 3).
Proof.
  split; [exact reach_w_blocked3|]. split; [by eexists; vm|]. split; [apply (newly_spec 1 2); vm|].
  split; [exists 0, (Some 1); vm|exists 1, (Some 2); vm].
Qed.
Theorem C11_first_come_refuted : ∃ s m n, reachable s ∧ quiet s ∧ default_priorities s ∧
  before (EvBlocked m) (EvBlocked n) s ∧ blocked m s = 1 ∧ happened (EvAccept n) s.
Proof. exact c11_refuted. Qed.
Print Assumptions C11_first_come_refuted.

(** ** C12: the bound holds up to the number of dropped receive futures. *)
Theorem C12_capacity_partial : ∀ n ops, length (uq (run (init (Some n)) ops)) ≤ n + dropped_receivers ops.
Proof. exact c12. Qed.
Print Assumptions C12_capacity_partial.
Example C12_example : length (uq (drive (init (Some 2)) (send 0 0 ++ send 0 1 ++ send 0 2))) = 2.
Proof. vm. Qed.
Theorem C12_capacity_refuted : ∃ n ops, n < length (uq (run (init (Some n)) ops)).
Proof. exact c12_refuted. Qed.
Print Assumptions C12_capacity_refuted.

(** ** C13 *)
Theorem C13_unicast : ∀ s t f m k, reachable s → next_action s t (USendLock f (PU m) k) →
  (receiver_ready s → between s (step s (Step t)) [EvAccept (um_id m)] ∧ uq (step s (Step t)) = uq s) ∧
  (¬ receiver_ready s → at_capacity s (length (uq s)) →
     between s (step s (Step t)) [EvBlocked (um_id m)] ∧ blocked_msg (step s (Step t)) m ∧ uq (step s (Step t)) = uq s) ∧
  (¬ receiver_ready s → ¬ at_capacity s (length (uq s)) →
     between s (step s (Step t)) [EvAccept (um_id m)] ∧ uq (step s (Step t)) ≡ₚ m :: uq s).
Proof. exact c13. Qed.
Print Assumptions C13_unicast.
Theorem C13_broadcast : ∀ s t f x k, reachable s → next_action s t (USendLock f (PB x) k) →
  (at_capacity s (tail s) → between s (step s (Step t)) [] ∧ blocked_bcast (step s (Step t)) x ∧
     bqueues (step s (Step t)) = bqueues s) ∧
  (¬ at_capacity s (tail s) → ∃ qs, between s (step s (Step t)) [EvBcast x qs] ∧
     (∀ q, q ∈ qs ↔ q ∈ bqs s ∧ ∃ b, bqueues s !! q = Some b ∧ 0 < bq_refs b) ∧
     cellsA (step s (Step t)) = cellsA s).
Proof. exact c13_broadcast. Qed.
Print Assumptions C13_broadcast.
(** [receiver_ready] is what a program sees as an idle receive future. *)
Theorem C13_idle_is_ready : ∀ s r, reachable s → idle s r → being_notified s r ∨ receiver_ready s.
Proof. exact c13_idle. Qed.
Print Assumptions C13_idle_is_ready.
Theorem C13_ready_is_idle : ∀ s, reachable s → receiver_ready s →
  (∃ r, idle s r) ∨ 0 < todo (λ u, match u with UPollOne _ _ | UOneDrop _ => true | _ => false end) s.
Proof. exact c13_ready. Qed.
Print Assumptions C13_ready_is_idle.
Example C13_example :
  reachable w_lock_full ∧ next_action w_lock_full 1 (USendLock 1 (PU (UM 1 0)) true) ∧
  at_capacity w_lock_full (length (uq w_lock_full)) ∧ ¬ receiver_ready w_lock_full ∧
  reachable w_lock_idle ∧ next_action w_lock_idle 1 (USendLock 0 (PU (UM 0 0)) true) ∧ receiver_ready w_lock_idle ∧ idle w_lock_idle 1 ∧
  reachable w_lock_bc ∧ next_action w_lock_bc 1 (USendLock 1 (PB (BM 1 0)) true) ∧ at_capacity w_lock_bc (tail w_lock_bc).
Proof.
  split; [exact reach_w_lock_full|]. split; [by eexists; vm|]. split; [exists 1; split; [vm|apply Nat.leb_le; vm]|].
  split. { intros (o & w & Ho & _). revert Ho. replace (wrx w_lock_full) with (@nil nat) by vm. by intros ?%elem_of_nil. }
  split; [exact reach_w_lock_idle|]. split; [by eexists; vm|].
  split. { exists 0, (Some 0). split; [|vm]. replace (wrx w_lock_idle) with [0] by vm. by left. }
  split. { eexists _, 0, true, (Some 0). split_and!; vm. }
  split; [exact reach_w_lock_bc|]. split; [by eexists; vm|]. exists 1; split; [vm|apply Nat.leb_le; vm].
Qed.

(** ** C14 *)
Theorem C14_blocked_only_if_full : ∀ s m, reachable s → 0 < blocked m s → ∃ n, cap s = Some n ∧ n ≤ length (uq s).
Proof. exact c14. Qed.
Print Assumptions C14_blocked_only_if_full.
Example C14_example : reachable w_blocked ∧ blocked 1 w_blocked = 1 ∧ blocked 2 w_blocked = 1 ∧ length (uq w_blocked) = 1.
Proof. split; [exact reach_w_blocked|]. split_and!; vm. Qed.

(** ** C15 *)
Theorem C15_idle_means_empty : ∀ s r h, reachable s → idle s r → ¬ being_notified s r → hols s !! r = Some h →
  uq s = [] ∧ backlog s (h_bq h) = [].
Proof. exact c15. Qed.
Print Assumptions C15_idle_means_empty.
Theorem C15_quiet : ∀ s r h, reachable s → quiet s → idle s r → hols s !! r = Some h →
  uq s = [] ∧ backlog s (h_bq h) = [].
Proof. exact c15_quiet. Qed.
Print Assumptions C15_quiet.
Example C15_example : reachable w_zero ∧ quiet w_zero ∧ idle w_zero 1 ∧ hols w_zero !! 1 = Some (HO 0 (HRecvWait 0) true 1).
Proof.
  split; [exact reach_w_zero|]. split; [apply quietb_spec; vm|]. split; [eexists _, 0, true, (Some 1); split_and!; vm|vm].
Qed.

(** ** C16: true for every capacity but 0, and for unbounded mailboxes. *)
Theorem C16_no_standoff_partial : ∀ s r m, reachable s → cap s ≠ Some 0 → 0 < blocked m s → idle s r → being_notified s r.
Proof. exact c16. Qed.
Print Assumptions C16_no_standoff_partial.
Example C16_example : reachable w_notify ∧ cap w_notify ≠ Some 0 ∧ 0 < blocked 1 w_notify ∧ idle w_notify 1 ∧ being_notified w_notify 1.
Proof.
  split; [exact reach_w_notify|]. split; [by vm_compute|]. split; [apply Nat.ltb_lt; vm|]. split; [eexists _, 0, true, (Some 0); split_and!; vm|].
  eexists _, 0, 3, _. split_and!; [vm|vm|vm|by left].
Qed.
Theorem C16_no_standoff_refuted : ∃ s r m, reachable s ∧ quiet s ∧ 0 < blocked m s ∧ idle s r ∧ is_conn s.
Proof. exact c16_refuted. Qed.
Print Assumptions C16_no_standoff_refuted.

(** ** C20 *)
Theorem C20_sender_count : ∀ s, reachable s → txc s = strong_addresses s + strong_futures s + strong_calls s.
Proof. exact c20. Qed.
Print Assumptions C20_sender_count.
Theorem C20_no_underflow : ∀ s t, reachable s → next_action s t UTxDec → 1 ≤ txc s.
Proof. exact c20_underflow. Qed.
Print Assumptions C20_no_underflow.
Example C20_example : reachable w_lock_full ∧ txc w_lock_full = 2 ∧ strong_addresses w_lock_full = 1 ∧ strong_calls w_lock_full = 1 ∧
  reachable w_drop ∧ next_action w_drop 0 UTxDec ∧ next_action w_drop 1 URxDec.
Proof. split; [exact reach_w_lock_full|]. split_and!; [vm|vm|vm|exact reach_w_drop|by eexists; vm|by eexists; vm]. Qed.

(** ** C21 *)
Theorem C21_mailbox_count : ∀ s, reachable s → rxc s = mailbox_objects s + mailbox_calls s.
Proof. exact c21. Qed.
Print Assumptions C21_mailbox_count.
Theorem C21_no_underflow : ∀ s t, reachable s → next_action s t URxDec → 1 ≤ rxc s.
Proof. exact c21_underflow. Qed.
Print Assumptions C21_no_underflow.
Example C21_example : reachable w_life ∧ rxc w_life = 2 ∧ mailbox_objects w_life = 2 ∧ reachable w_drop ∧ rxc w_drop = 1 ∧ mailbox_calls w_drop = 1.
Proof. split; [exact reach_w_life|]. split_and!; [vm|vm|exact reach_w_drop|vm|vm]. Qed.

(** ** C22 *)
Theorem C22_permanent : ∀ s s', reachable s → later s s' → ¬ is_conn s → ¬ is_conn s'.
Proof. exact c22. Qed.
Print Assumptions C22_permanent.
(** No [is_connected] call begun after the disconnection ever returns true. *)
Theorem C22_observed : ∀ s s', reachable s → later s s' → ¬ is_conn s →
  todo (λ u, match u with UConnLd2 _ => true | _ => false end) s = 0 →
  times (λ e, match e with EvConn _ b => b | _ => false end) s' = times (λ e, match e with EvConn _ b => b | _ => false end) s.
Proof. exact c22_observed. Qed.
Print Assumptions C22_observed.
Example C22_example : reachable w_early0 ∧ later w_early0 w_early ∧ ¬ is_conn w_early0 ∧
  todo (λ u, match u with UConnLd2 _ => true | _ => false end) w_early0 = 0.
Proof.
  split; [exact reach_w_early0|]. split; [exact later_w_early|]. split; [|vm].
  intros [_ H]. revert H. replace (txc w_early0) with 0 by vm. apply Nat.lt_irrefl.
Qed.

(** ** C23 *)
Theorem C23_upgrade : ∀ s a, reachable s → addrs s !! a = Some (AD false false true) →
  (0 < strong_addresses s + strong_futures s + strong_calls s →
    log (step s (AUpgrade a)) = EvUpgrade a (Some (length (addrs s))) :: log s ∧
    addrs (step s (AUpgrade a)) = addrs s ++ [AD true false true] ∧ txc (step s (AUpgrade a)) = S (txc s)) ∧
  (strong_addresses s + strong_futures s + strong_calls s = 0 →
    log (step s (AUpgrade a)) = EvUpgrade a None :: log s ∧ addrs (step s (AUpgrade a)) = addrs s ∧ txc (step s (AUpgrade a)) = 0).
Proof. exact c23. Qed.
Print Assumptions C23_upgrade.
Example C23_example :
  reachable w_weak ∧ addrs w_weak !! 1 = Some (AD false false true) ∧ strong_addresses w_weak = 1 ∧
  reachable w_weak2 ∧ addrs w_weak2 !! 1 = Some (AD false false true) ∧ strong_addresses w_weak2 + strong_futures w_weak2 + strong_calls w_weak2 = 0.
Proof. split; [exact reach_w_weak|]. split_and!; [vm|vm|exact reach_w_weak2|vm|vm]. Qed.

(** ** C25 *)
Theorem C25_idle_receivers_stop : ∀ s r, reachable s → quiet s → strong_addresses s + strong_futures s = 0 → ¬ idle s r.
Proof. exact c25. Qed.
Print Assumptions C25_idle_receivers_stop.
Example C25_example : reachable w_early0 ∧ quiet w_early0 ∧ strong_addresses w_early0 + strong_futures w_early0 = 0 ∧
  hols w_early0 !! 2 = Some (HO 0 (HRecvWait 1) true 1).
Proof. split; [exact reach_w_early0|]. split; [apply quietb_spec; vm|]. split; vm. Qed.

(** ** C26: true of a receive that finds the end of life itself; a waiting receive that
    was told to stop may leave messages behind that were given back to the queue. *)
Theorem C26_drained_partial : ∀ s t r h, reachable s → next_action s t (UTryRecv r) → hols s !! r = Some h →
  newly s (step s (Step t)) (EvRecv r Shut) →
  uq s = [] ∧ backlog s (h_bq h) = [] ∧ txc s = 0 ∧ (cap s ≠ Some 0 → ∀ m, blocked m s = 0).
Proof. exact c26. Qed.
Print Assumptions C26_drained_partial.
Example C26_example : reachable w_end ∧ next_action w_end 1 (UTryRecv 1) ∧ newly w_end (step w_end (Step 1)) (EvRecv 1 Shut).
Proof. split; [exact reach_w_end|]. split; [by eexists; vm|]. apply (newly_spec 0 1); vm. Qed.
Theorem C26_drained_refuted : ∃ s s' r m,
  reachable s ∧ later s s' ∧ quiet s ∧ quiet s' ∧ in_queue m s = 1 ∧ in_queue m s' = 1 ∧ newly s s' (EvRecv r Shut).
Proof. exact c26_refuted. Qed.
Print Assumptions C26_drained_refuted.
