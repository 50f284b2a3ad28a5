(** Property theorems, part C: broadcasts, broadcast capacity, disconnection; refutations. *)
From stdpp Require Import base numbers list list_numbers.
From Verif Require Import Prio Heap State Model Spec Bridge Witness WitnessB WitnessC ClaimsC.

(** ** C05 *)
Theorem C05_accepted_once : ∀ s i, reachable s → times (broadcasted i) s ≤ 1.
Proof. exact c05_once. Qed.
Print Assumptions C05_accepted_once.
(** Every mailbox that exists when a broadcast is accepted is among its recipients. *)
Theorem C05_reaches_every_mailbox : ∀ s o x qs b, reachable s → newly s (step s o) (EvBcast x qs) → owned_queue s b → b ∈ qs.
Proof. exact c05_reaches. Qed.
Print Assumptions C05_reaches_every_mailbox.
(** A recipient holds the broadcast or has received it, once; nobody else ever does. *)
Theorem C05_exactly_once : ∀ s x qs b, reachable s → happened (EvBcast x qs) s →
  (b ∈ qs → copies (bm_id x) b s + got (bm_id x) b s ≤ 1 ∧ (owned_queue s b → copies (bm_id x) b s + got (bm_id x) b s = 1)) ∧
  (b ∉ qs → copies (bm_id x) b s + got (bm_id x) b s = 0).
Proof. exact c05_copies. Qed.
Print Assumptions C05_exactly_once.
Example C05_example_accept : reachable w_bc0 ∧ owned_queue w_bc0 0 ∧ owned_queue w_bc0 1 ∧
  newly w_bc0 (step w_bc0 (Step 1)) (EvBcast (BM 0 0) [0; 1]).
Proof.
  split; [exact reach_w_bc0|]. split; [eapply (owned_spec 0); [vm|done|done]|]. split; [eapply (owned_spec 1); [vm|done|done]|].
  apply (newly_spec 0 1); vm.
Qed.
Example C05_example : reachable w_bc ∧ happened (EvBcast (BM 0 0) [0; 1]) w_bc ∧ copies 0 0 w_bc = 0 ∧ got 0 0 w_bc = 1 ∧
  owned_queue w_bc 1 ∧ copies 0 1 w_bc = 1 ∧ got 0 1 w_bc = 0.
Proof.
  split; [exact reach_w_bc|]. split; [apply (happened_spec 2); vm|]. split; [vm|]. split; [vm|].
  split; [eapply (owned_spec 1); [vm|done|done]|]. split; vm.
Qed.

(** ** C06 *)
Theorem C06_later_mailbox_never_receives : ∀ s s' x qs b, reachable s → later s s' → happened (EvBcast x qs) s → bqueues s !! b = None →
  copies (bm_id x) b s' = 0 ∧ got (bm_id x) b s' = 0.
Proof. exact c06. Qed.
Print Assumptions C06_later_mailbox_never_receives.
(** A cloned mailbox is a new object with a queue that did not exist before. *)
Theorem C06_clone_has_new_queue : ∀ s t, reachable s → next_action s t UCloneReg →
  hols (step s (Step t)) = hols s ++ [HO (length (bqueues s)) HMailbox true 0] ∧ bqueues s !! length (bqueues s) = None.
Proof. exact c06_clone. Qed.
Print Assumptions C06_clone_has_new_queue.
Example C06_example : reachable w_bc ∧ later w_bc w_bc2 ∧ happened (EvBcast (BM 0 0) [0; 1]) w_bc ∧ bqueues w_bc !! 2 = None ∧
  owned_queue w_bc2 2.
Proof.
  split; [exact reach_w_bc|]. split; [exact later_w_bc|]. split; [apply (happened_spec 2); vm|]. split; [vm|].
  eapply (owned_spec 3); [vm|done|done].
Qed.
Example C06_example_clone : reachable w_bc1 ∧ next_action w_bc1 3 UCloneReg.
Proof. split; [exact reach_w_bc1|]. exists []. vm. Qed.

(** ** C08 *)
(** [AStopAll] with a strong address begins a call whose first action is [UStopAll]; it puts one stop signal into the
    queue of every mailbox. *)
Theorem C08_stop_reaches_every_mailbox : ∀ s t b, reachable s → next_action s t UStopAll → owned_queue s b →
  copies (nbm s) b (step s (Step t)) = 1 ∧ BStop (nbm s) ∈ backlog (step s (Step t)) b.
Proof. exact c08_put. Qed.
Print Assumptions C08_stop_reaches_every_mailbox.
(** Whatever else is queued, a fresh receive on a mailbox with a pending stop signal returns a stop signal. *)
Theorem C08_stop_is_next : ∀ s t r h i, reachable s → next_action s t (UTryRecv r) → hols s !! r = Some h → BStop i ∈ backlog s (h_bq h) →
  ∃ j, newly s (step s (Step t)) (EvRecv r (ToAll (BStop j))).
Proof. exact c08_first. Qed.
Print Assumptions C08_stop_is_next.
(** Dispatching it reports Break. *)
Theorem C08_stop_breaks : ∀ s r b k w i, hols s !! r = Some (HO b (HDispNew (ToAll (BStop i))) k w) →
  ∃ n, newly s (run s (ARun r :: replicate n (Step (length (thr s))))) (EvFlow r true).
Proof. exact c08_breaks. Qed.
Print Assumptions C08_stop_breaks.
Example C08_example_put : reachable w_stop0 ∧ next_action w_stop0 4 UStopAll ∧ owned_queue w_stop0 0.
Proof. split; [exact reach_w_stop0|]. split; [exists [UTxDec]; vm|]. eapply (owned_spec 0); [vm|done|done]. Qed.
Example C08_example_first : reachable w_stop ∧ next_action w_stop 5 (UTryRecv 2) ∧ option_map h_bq (hols w_stop !! 2) = Some 0 ∧
  uq w_stop = [UM 1 9] ∧ backlog w_stop 0 = [BStop 1; BM 0 9] ∧ hols w_stop1 !! 2 = Some (HO 0 (HDispNew (ToAll (BStop 1))) true 4).
Proof. split; [exact reach_w_stop|]. split; [exists []; vm|]. split_and!; vm. Qed.

(** ** C17 *)
Theorem C17_broadcast_backlog_bound : ∀ s b n, reachable s → cap s = Some n → cnt ordinary (backlog s b) ≤ n.
Proof. exact c17. Qed.
Print Assumptions C17_broadcast_backlog_bound.
Example C17_example : reachable w_stop ∧ cap w_stop = Some 1 ∧ owned_queue w_stop 0 ∧ backlog w_stop 0 = [BStop 1; BM 0 9].
Proof. split; [exact reach_w_stop|]. split; [vm|]. split; [eapply (owned_spec 0); [vm|done|done]|vm]. Qed.

(** ** C18 *)
(** Full statement: in every reachable quiet state with a mailbox, if a broadcast is blocked then some mailbox that
    exists ([owned_queue]) has at least [capacity] unreceived broadcasts.  It is false, and the blockage is permanent
    in the witness: everything was received and a receiver is idle. *)
Theorem C18_blocked_by_gone_mailbox_refuted : ∃ s x b0, reachable s ∧ quiet s ∧ blocked_bcast s x ∧ owned_queue s b0 ∧
  ∀ n b, cap s = Some n → owned_queue s b → length (backlog s b) < n.
Proof. exact c18_refuted. Qed.
Print Assumptions C18_blocked_by_gone_mailbox_refuted.
(** It holds as long as no mailbox queue was thrown away with unreceived broadcasts.  In quiet states [kept_queue] is
    [owned_queue]. *)
Theorem C18_blocked_by_lagging_mailbox_partial : ∀ c ops s x b0, s = run (init c) ops → keeps (init c) ops → no_void_broadcast s →
  blocked_bcast s x → owned_queue s b0 → ∃ n b, cap s = Some n ∧ kept_queue s b ∧ n ≤ length (backlog s b).
Proof. exact c18. Qed.
Print Assumptions C18_blocked_by_lagging_mailbox_partial.
Example C18_example : keeps (init (Some 1)) lag_ops ∧ no_void_broadcast w_lag ∧ blocked_bcast w_lag (BM 1 0) ∧ owned_queue w_lag 0 ∧
  backlog w_lag 0 = [BM 0 0].
Proof.
  split; [apply keepsb_spec; vm|]. split; [apply no_void_spec; vm|]. split; [exists 0, (Some 1); vm|].
  split; [eapply (owned_spec 0); [vm|done|done]|vm].
Qed.

(** ** C19 *)
Theorem C19_len_at_least : ∀ s b, reachable s → owned_queue s b → length (uq s) + length (backlog s b) ≤ chan_len s.
Proof. exact c19_bound. Qed.
Print Assumptions C19_len_at_least.
Theorem C19_len_exact : ∀ c ops s b0, s = run (init c) ops → keeps (init c) ops → no_void_broadcast s → owned_queue s b0 →
  ∃ b, kept_queue s b ∧ chan_len s = length (uq s) + length (backlog s b) ∧
       ∀ b', kept_queue s b' → length (backlog s b') ≤ length (backlog s b).
Proof. exact c19_exact. Qed.
Print Assumptions C19_len_exact.
Example C19_example : keeps (init (Some 1)) lag_ops ∧ no_void_broadcast w_lag ∧ owned_queue w_lag 0 ∧
  chan_len w_lag = 2 ∧ length (uq w_lag) = 1 ∧ length (backlog w_lag 0) = 1.
Proof.
  split; [apply keepsb_spec; vm|]. split; [apply no_void_spec; vm|]. split; [eapply (owned_spec 0); [vm|done|done]|].
  split_and!; vm.
Qed.
(** Where a mailbox with unreceived broadcasts was dropped, the length stays too large. *)
Example C19_example_strict : reachable w_stale2 ∧ owned_queue w_stale2 0 ∧ chan_len w_stale2 = 1 ∧
  length (uq w_stale2) = 0 ∧ length (backlog w_stale2 0) = 0.
Proof.
  split; [exact (reach_later _ _ reach_w_stale later_w_stale)|]. split; [eapply (owned_spec 0); [vm|done|done]|]. split_and!; vm.
Qed.

(** ** C24 *)
Theorem C24_first_poll_fails : ∀ s f x p k, reachable s → sfs s !! f = Some x → sf_live x = true → sf_st x = SNew p k → ¬ is_conn s →
  resolves_to s f OErrDisconnected.
Proof. exact c24_fails. Qed.
Print Assumptions C24_first_poll_fails.
Theorem C24_never_anything_else : ∀ s s' f x p k o, reachable s → later s s' → sfs s !! f = Some x → sf_st x = SNew p k → ¬ is_conn s →
  newly s s' (EvSend f o) → o = OErrDisconnected.
Proof. exact c24_only_fails. Qed.
Print Assumptions C24_never_anything_else.
Theorem C24_message_not_queued : ∀ s s' f x u k, reachable s → later s s' → sfs s !! f = Some x → sf_st x = SNew (PU u) k → ¬ is_conn s →
  times (accepted (um_id u)) s' = 0 ∧ blocked (um_id u) s' = 0.
Proof. exact c24_not_queued. Qed.
Print Assumptions C24_message_not_queued.
Theorem C24_broadcast_not_put : ∀ s s' f x y k, reachable s → later s s' → sfs s !! f = Some x → sf_st x = SNew (PB y) k → ¬ is_conn s →
  (∀ z qs, bm_id z = bm_id y → ¬ happened (EvBcast z qs) s') ∧ (∀ z, bm_id z = bm_id y → ¬ blocked_bcast s' z).
Proof. exact c24_not_broadcast. Qed.
Print Assumptions C24_broadcast_not_put.
Theorem C24_error_only_if_disconnected : ∀ s f, reachable s → happened (EvSend f OErrDisconnected) s → ¬ is_conn s.
Proof. exact c24_only_if. Qed.
Print Assumptions C24_error_only_if_disconnected.
Example C24_example : reachable w_dead ∧ rxc w_dead = 0 ∧ sfs w_dead !! 0 = Some (SF (SNew (PU (UM 0 0)) true) (MReturn 0) true 0) ∧
  sfs w_dead !! 1 = Some (SF (SNew (PB (BM 0 0)) true) MBroadcast true 0) ∧ later w_dead w_dead2 ∧
  newly w_dead w_dead2 (EvSend 0 OErrDisconnected) ∧ happened (EvSend 1 OErrDisconnected) w_dead2.
Proof.
  split; [exact reach_w_dead|]. split; [vm|]. split; [vm|]. split; [vm|]. split; [exact later_w_dead|].
  split; [apply (newly_spec 1 3); vm|apply (happened_spec 0); vm].
Qed.

(** ** Refuted properties *)

(** C04: a message assigned to a receive future is dropped with it (the destructor looked before the sender assigned
    it) although a mailbox is alive. *)
Theorem C04_window_refuted : ∃ s m, reachable s ∧ quiet s ∧ 0 < mailbox_objects s ∧ happened (EvAccept m) s ∧ happened (EvDrop m DWindow) s.
Proof. exact c04_refuted. Qed.
Print Assumptions C04_window_refuted.
(** C27: no mailbox, no call in progress, and a send future that still waits. *)
Theorem C27_late_send_refuted : ∃ s f x, reachable s ∧ quiet s ∧ rxc s = 0 ∧ sfs s !! f = Some x ∧ pollable x ∧ resolves_to s f OPending.
Proof. exact c27_refuted. Qed.
Print Assumptions C27_late_send_refuted.
(** C34: the address is disconnected, no call in progress, and a join handle is pending. *)
Theorem C34_join_refuted : ∃ s j, reachable s ∧ quiet s ∧ ¬ is_conn s ∧ newly s (step s (APollJoin j)) (EvJoin j false).
Proof. exact c34_refuted. Qed.
Print Assumptions C34_join_refuted.
(** C43: a handler calls stop_all when there is no strong address; another mailbox goes on receiving messages. *)
Theorem C43_stop_all_without_strong_refuted : ∃ s r h m, reachable s ∧ quiet s ∧ hols s !! r = Some h ∧ h_st h = HRun m ∧
  ∃ r2 k, newly s (drive s (AStopAll r :: recv 1 r2)) (EvRecv r2 (ToOne k)).
Proof. exact c43_refuted. Qed.
Print Assumptions C43_stop_all_without_strong_refuted.
(** C46: a message of priority above the default is blocked although only default-priority messages are queued. *)
Theorem C46_shared_capacity_refuted : ∃ s k, reachable s ∧ quiet s ∧ blocked_msg s k ∧ um_val k ≠ 0%N ∧ Forall (λ m, um_val m = 0%N) (uq s).
Proof. exact c46_refuted. Qed.
Print Assumptions C46_shared_capacity_refuted.
