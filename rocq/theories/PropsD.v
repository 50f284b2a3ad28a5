(** Property theorems, part D. *)
From stdpp Require Import base numbers list list_numbers.
From Coq Require Import Lia.
From Verif Require Import Prio Heap State Model Lib Spec Witness WitnessB WitnessC WitnessD ClaimsD.

(** ** C04: full statement: a message assigned to a receive future is put back whenever the future is dropped
    (false if the sender assigns it while the destructor runs on another thread: [C04_window_refuted]).  Proved: if
    the message is there when the destructor looks, it is put back; and if no two calls overlap it is never lost. *)
Theorem C04_put_back_partial : ∀ s t o rx m, reachable s → next_action s t (UCancel o) → ones s !! o = Some (ON rx (OFull (CNewMsg m))) →
  in_queue (um_id m) (run s [Step t; Step t]) + in_flight (um_id m) (run s [Step t; Step t]) = 1.
Proof. exact c04_back. Qed.
Print Assumptions C04_put_back_partial.
Theorem C04_sequential_partial : ∀ c ops m, sequential (init c) ops → ¬ happened (EvDrop m DWindow) (run (init c) ops).
Proof. exact c04_sequential. Qed.
Print Assumptions C04_sequential_partial.
Example C04_example : reachable w_back ∧ next_action w_back 2 (UCancel 0) ∧ ones w_back !! 0 = Some (ON true (OFull (CNewMsg (UM 0 0)))) ∧
  sequential (init None) calm_ops ∧ happened (EvAccept 0) w_calm ∧ in_queue 0 w_calm = 1 ∧ quiet w_calm.
Proof.
  split; [exact reach_w_back|]. split; [by eexists; vm|]. split; [vm|]. split; [apply sequentialb_spec; vm|].
  split; [apply (happened_spec 1); vm|]. split; [vm|]. apply quietb_spec; vm.
Qed.

(** ** C27: full statement: once the last mailbox is gone no send waits for ever (false for a send that passed its
    check for connectedness before: [C27_late_send_refuted]).  Proved: blocked sends fail with [Disconnected], sends
    of queued messages with [Interrupted], and every send and reply future resolves if no send was past its check
    when the channel was cleared. *)
Theorem C27_blocked_disconnected : ∀ s t s' f x m, reachable s → next_action s t URxShutdown → later (step s (Step t)) s' → quiet s' →
  0 < blocked m s → sfs s' !! f = Some x → pollable x → message_of x = Some m → resolves_to s' f OErrDisconnected.
Proof. exact c27_blocked. Qed.
Print Assumptions C27_blocked_disconnected.
Theorem C27_queued_interrupted : ∀ s t s' f x m, reachable s → next_action s t URxShutdown → later (step s (Step t)) s' → quiet s' →
  0 < in_queue m s → sfs s' !! f = Some x → pollable x → sf_mode x = MReturn m → resolves_to s' f OErrInterrupted.
Proof. exact c27_queued. Qed.
Print Assumptions C27_queued_interrupted.
Theorem C27_all_resolve_partial : ∀ s t s', reachable s → next_action s t URxShutdown → sends_past_check s = 0 → later (step s (Step t)) s' → quiet s' →
  (∀ f x, sfs s' !! f = Some x → pollable x → ∃ o, o ≠ OPending ∧ o ≠ OPanic ∧ resolves_to s' f o) ∧
  (∀ i x, rcvs s' !! i = Some x → rc_live x = true → rc_st x = XIdle → ∃ o, o ≠ OPending ∧ o ≠ OPanic ∧ receiver_resolves_to s' i o).
Proof. exact c27_all. Qed.
Print Assumptions C27_all_resolve_partial.
Example C27_example : reachable w_last ∧ next_action w_last 3 URxShutdown ∧ sends_past_check w_last = 0 ∧ later (step w_last (Step 3)) w_last2 ∧ quiet w_last2 ∧
  0 < in_queue 0 w_last ∧ 0 < blocked 1 w_last ∧ 0 < blocked 2 w_last ∧
  (∃ x, sfs w_last2 !! 0 = Some x ∧ pollable x ∧ sf_mode x = MReturn 0) ∧ (∃ x, sfs w_last2 !! 1 = Some x ∧ pollable x ∧ message_of x = Some 1) ∧
  (∃ x, sfs w_last2 !! 2 = Some x ∧ pollable x ∧ message_of x = Some 2) ∧ (∃ x p k, sfs w_last2 !! 3 = Some x ∧ pollable x ∧ sf_st x = SNew p k).
Proof.
  split; [exact reach_w_last|]. split; [by eexists; vm|]. split; [vm|]. split; [exact later_w_last|]. split; [apply quietb_spec; vm|].
  do 3 (split; [apply Nat.ltb_lt; vm|]).
  split; [eexists; split; [vm|done]|]. split; [eexists; split; [vm|done]|]. split; [eexists; split; [vm|done]|]. eexists _, _, _; split; [vm|done].
Qed.

(** ** C43: full statement: after stop_all every mailbox of the address receives the stop signal next (false when no
    strong address exists: [C43_stop_all_without_strong_refuted]).  Proved: while a strong address exists the stop
    signal is in every mailbox when stop_all has acted; that it is received next is [C08_stop_is_next]. *)
Theorem C43_stop_all_partial : ∀ s r h m b, reachable s → hols s !! r = Some h → h_st h = HRun m → 0 < txc s → owned_queue s b →
  ∃ i, BStop i ∈ backlog (run s [AStopAll r; Step (length (thr s))]) b.
Proof. exact c43_partial. Qed.
Print Assumptions C43_stop_all_partial.
Example C43_example : ∃ h, reachable w_all ∧ hols w_all !! 2 = Some h ∧ h_st h = HRun (ToOne (UM 0 0)) ∧ 0 < txc w_all ∧
  owned_queue w_all 0 ∧ owned_queue w_all 1.
Proof.
  eexists. split; [exact reach_w_all|]. split; [vm|]. split; [done|]. split; [apply Nat.ltb_lt; vm|].
  split; [eapply (owned_spec 0); [vm|done|done]|eapply (owned_spec 1); [vm|done|done]].
Qed.

(** ** C46: full statement: messages of default priority, messages of other priorities and broadcasts have separate
    capacities (false for the first two: [C46_shared_capacity_refuted]).  Proved: broadcasts do not take space from
    messages, nor messages from broadcasts. *)
Theorem C46_unicast_partial : ∀ s t f m k, reachable s → next_action s t (USendLock f (PU m) k) → ¬ at_capacity s (length (uq s)) →
  between s (step s (Step t)) [EvAccept (um_id m)].
Proof. exact c46_unicast. Qed.
Print Assumptions C46_unicast_partial.
Theorem C46_broadcast_partial : ∀ s t f x k, reachable s → next_action s t (USendLock f (PB x) k) → ¬ at_capacity s (tail s) →
  ∃ qs, between s (step s (Step t)) [EvBcast x qs].
Proof. exact c46_broadcast. Qed.
Print Assumptions C46_broadcast_partial.
Example C46_example : reachable w_fullU ∧ next_action w_fullU 1 (USendLock 1 (PB (BM 0 0)) true) ∧ ¬ at_capacity w_fullU (tail w_fullU) ∧
  at_capacity w_fullU (length (uq w_fullU)) ∧
  reachable w_fullB ∧ next_action w_fullB 1 (USendLock 1 (PU (UM 0 0)) true) ∧ ¬ at_capacity w_fullB (length (uq w_fullB)) ∧
  at_capacity w_fullB (tail w_fullB).
Proof.
  split; [exact reach_w_fullU|]. split; [by eexists; vm|].
  split. { intros (n & Hn & Hle). assert (cap w_fullU = Some 1) as E by vm. rewrite E in Hn. injection Hn as <-. revert Hle. apply Nat.lt_nge, Nat.ltb_lt. vm. }
  split; [exists 1; split; [vm|apply Nat.leb_le; vm]|].
  split; [exact reach_w_fullB|]. split; [by eexists; vm|].
  split. { intros (n & Hn & Hle). assert (cap w_fullB = Some 1) as E by vm. rewrite E in Hn. injection Hn as <-. revert Hle. apply Nat.lt_nge, Nat.ltb_lt. vm. }
  exists 1; split; [vm|apply Nat.leb_le; vm].
Qed.
