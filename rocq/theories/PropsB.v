(** Property theorems, part B: the fate of messages and the replies. *)
From stdpp Require Import base numbers list list_numbers.
From Verif Require Import Prio Heap State Model Spec Bridge Witness WitnessB ClaimsB.

(** ** C02 *)
(** An accepted message is in exactly one place or has met exactly one fate; [before_receive] and [by_program]
    list the reasons for which it can have been dropped. *)
Theorem C02_accounted : ∀ s m, reachable s → 0 < times (accepted m) s →
  in_queue m s + in_flight m s + in_requeue m s + held m s + running m s
  + in_drop before_receive m s + in_drop by_program m s
  + times (dropped before_receive m) s + times (dropped by_program m) s + times (finished m) s = 1
  ∧ times (dropped before_accept m) s = 0.
Proof. exact c02. Qed.
Print Assumptions C02_accounted.
(** In flight means: assigned to a receive future that is waiting, being polled, or being dropped. *)
Theorem C02_in_flight : ∀ s m, reachable s → 0 < in_flight m s →
  (∃ r h o k, hols s !! r = Some h ∧ h_st h = HRecvWait o ∧ ones s !! o = Some (ON true (OFull (CNewMsg k))) ∧ um_id k = m) ∨
  0 < todo (λ u, match u with UPollOne _ _ | UOneDrop _ => true | _ => false end) s.
Proof. exact c02_flight. Qed.
Print Assumptions C02_in_flight.
(** A resolved detached send was accepted. *)
Theorem C02_resolved_accepted : ∀ s f x, reachable s → happened (EvSend f (OReceiver x)) s →
  ∃ rc, rcvs s !! x = Some rc ∧ 0 < times (accepted (rc_m rc)) s.
Proof. exact c02_accepted. Qed.
Print Assumptions C02_resolved_accepted.
(** So was a message handed to a receiver. *)
Theorem C02_handed_accepted : ∀ s m, reachable s → 0 < in_flight m s + times (received m) s → 0 < times (accepted m) s.
Proof. exact c02_received. Qed.
Print Assumptions C02_handed_accepted.
(** What must have happened for each reason. *)
Theorem C02_reasons : ∀ s m y, reachable s → happened (EvDrop m y) s →
  match y with
  | DCleared => rxc s = 0
  | DFreed => (∀ a x, addrs s !! a = Some x → ad_live x = false) ∧ (∀ r h, hols s !! r = Some h → h_st h = HGone)
  | DUserMsg => times (received m) s = 1 ∧ times (handled m) s = 0
  | DUserRun => times (handled m) s = 1 ∧ times (finished m) s = 0
  | DSendDropped | DDisconnected | DClosed => times (accepted m) s = 0
  | DWindow => times (received m) s = 0
  end.
Proof. exact c02_reasons. Qed.
Print Assumptions C02_reasons.
Example C02_example : reachable w_reply ∧
  times (accepted 0) w_reply = 1 ∧ times (finished 0) w_reply = 1 ∧
  happened (EvSend 1 (OReceiver 0)) w_reply ∧
  times (accepted 2) w_reply = 1 ∧ times (dropped by_program 2) w_reply = 1 ∧
  times (accepted 3) w_reply = 1 ∧ running 3 w_reply = 1.
Proof. split; [exact reach_w_reply|]. split_and!; try vm. apply (happened_spec 14); vm. Qed.
Example C02_example_in_flight : reachable w_flight ∧ in_flight 0 w_flight = 1 ∧ in_queue 1 w_flight = 1.
Proof. split; [exact reach_w_flight|]. split_and!; vm. Qed.
Example C02_example_reasons : reachable w_fail ∧ happened (EvDrop 0 DCleared) w_fail ∧ rxc w_fail = 0 ∧ happened (EvDrop 1 DClosed) w_fail.
Proof. split; [exact reach_w_fail|]. split_and!; [apply (happened_spec 3); vm|vm|apply (happened_spec 2); vm]. Qed.

(** ** C03 *)
Theorem C03_failed_never_received : ∀ s f x m s', reachable s → happened (EvSend f OErrDisconnected) s →
  sfs s !! f = Some x → message_of x = Some m → later s s' →
  times (accepted m) s' = 0 ∧ times (received m) s' = 0 ∧ times (handled m) s' = 0.
Proof. exact c03_failed. Qed.
Print Assumptions C03_failed_never_received.
(** A cancelled send whose message was not accepted when its destructor returned. *)
Theorem C03_cancelled_never_received : ∀ s f x m s', reachable s → sfs s !! f = Some x → message_of x = Some m → sf_live x = false →
  cancelling s = 0 → times (accepted m) s = 0 → later s s' →
  times (accepted m) s' = 0 ∧ times (received m) s' = 0 ∧ times (handled m) s' = 0.
Proof. exact c03_cancelled. Qed.
Print Assumptions C03_cancelled_never_received.
Example C03_example_failed : reachable w_fail ∧ happened (EvSend 1 OErrDisconnected) w_fail ∧
  option_map message_of (sfs w_fail !! 1) = Some (Some 1).
Proof. split; [exact reach_w_fail|]. split; [apply (happened_spec 1); vm|vm]. Qed.
(** The cancelled message 1 stays unreceived although a slot becomes free and a receiver waits. *)
Example C03_example_cancelled : reachable w_cancel ∧ option_map message_of (sfs w_cancel !! 1) = Some (Some 1) ∧
  option_map sf_live (sfs w_cancel !! 1) = Some false ∧ cancelling w_cancel = 0 ∧ times (accepted 1) w_cancel = 0 ∧
  later w_cancel w_cancel2 ∧ times (received 0) w_cancel2 = 1 ∧ idle w_cancel2 2.
Proof.
  split; [exact reach_w_cancel|]. split; [vm|]. split; [vm|]. split; [vm|]. split; [vm|]. split; [exact later_w_cancel|]. split; [vm|].
  unfold idle. exists (HO 0 (HRecvWait 0) true 3), 0, true, (Some 3). split; [vm|]. split; [done|vm].
Qed.

(** ** C28 *)
Theorem C28_value_of_own_message : ∀ s f v, reachable s → happened (EvSend f (OValue v)) s →
  ∃ x m, sfs s !! f = Some x ∧ sf_mode x = MReturn m ∧ happened (EvDone m v) s.
Proof. exact c28_value. Qed.
Print Assumptions C28_value_of_own_message.
Theorem C28_receiver_value_of_own_message : ∀ s x v, reachable s → happened (EvReceiver x (OValue v)) s →
  ∃ rc, rcvs s !! x = Some rc ∧ happened (EvDone (rc_m rc) v) s.
Proof. exact c28_receiver. Qed.
Print Assumptions C28_receiver_value_of_own_message.
Theorem C28_completes_once : ∀ s, reachable s → (∀ f, times (completes f) s ≤ 1) ∧ (∀ x, times (receiver_completes x) s ≤ 1) ∧
  (∀ m v v', happened (EvDone m v) s → happened (EvDone m v') s → v = v').
Proof. exact c28_once. Qed.
Print Assumptions C28_completes_once.
Theorem C28_distinct_messages : ∀ s, reachable s →
  (∀ f g x y m, sfs s !! f = Some x → sfs s !! g = Some y → message_of x = Some m → message_of y = Some m → f = g) ∧
  (∀ f g x y, rcvs s !! f = Some x → rcvs s !! g = Some y → rc_m x = rc_m y → f = g) ∧
  (∀ f g x y m, sfs s !! f = Some x → rcvs s !! g = Some y → message_of x = Some m → rc_m y ≠ m).
Proof. exact c28_distinct. Qed.
Print Assumptions C28_distinct_messages.
(** The message of a future stays its message until a detached receiver takes it over. *)
Theorem C28_message_follows_future : ∀ s s' f x m, reachable s → sfs s !! f = Some x → message_of x = Some m → later s s' →
  (∃ x', sfs s' !! f = Some x' ∧ message_of x' = Some m) ∨
  (∃ y rc, happened (EvSend f (OReceiver y)) s' ∧ rcvs s' !! y = Some rc ∧ rc_m rc = m).
Proof. exact c28_follows. Qed.
Print Assumptions C28_message_follows_future.
Example C28_example : reachable w_reply2 ∧ happened (EvSend 0 (OValue 7)) w_reply2 ∧ happened (EvReceiver 0 (OValue 8)) w_reply2 ∧
  times (completes 0) w_reply2 = 1 ∧ times (completes 3) w_reply2 = 0.
Proof. split; [exact reach_w_reply2|]. split_and!; [apply (happened_spec 3); vm|apply (happened_spec 2); vm|vm|vm]. Qed.

(** ** C29 *)
Theorem C29_sender_resolvable : ∀ s f x m, reachable s → quiet s → sfs s !! f = Some x → pollable x → message_of x = Some m →
  (∀ v, sf_mode x = MReturn m → happened (EvDone m v) s → resolves_to s f (OValue v)) ∧
  (∀ y, sf_mode x = MReturn m → happened (EvDrop m y) s → 0 < times (accepted m) s → resolves_to s f OErrInterrupted) ∧
  (∀ y, happened (EvDrop m y) s → times (accepted m) s = 0 → resolves_to s f OErrDisconnected) ∧
  (sf_mode x = MDetached (Some m) → 0 < times (accepted m) s → resolves_to s f (OReceiver (length (rcvs s)))).
Proof. exact c29_send. Qed.
Print Assumptions C29_sender_resolvable.
Theorem C29_receiver_resolvable : ∀ s x rc, reachable s → quiet s → rcvs s !! x = Some rc → rc_live rc = true → rc_st rc = XIdle →
  (∀ v, happened (EvDone (rc_m rc) v) s → receiver_resolves_to s x (OValue v)) ∧
  (∀ y, happened (EvDrop (rc_m rc) y) s → receiver_resolves_to s x OErrInterrupted).
Proof. exact c29_receiver. Qed.
Print Assumptions C29_receiver_resolvable.
Theorem C29_interrupted_only_if_dropped : ∀ s, reachable s →
  (∀ f, happened (EvSend f OErrInterrupted) s → ∃ x m y, sfs s !! f = Some x ∧ sf_mode x = MReturn m ∧ happened (EvDrop m y) s) ∧
  (∀ x, happened (EvReceiver x OErrInterrupted) s → ∃ rc y, rcvs s !! x = Some rc ∧ happened (EvDrop (rc_m rc) y) s).
Proof. exact c29_only. Qed.
Print Assumptions C29_interrupted_only_if_dropped.
Example C29_example : reachable w_reply ∧ quiet w_reply ∧
  (∃ x, sfs w_reply !! 0 = Some x ∧ pollable x ∧ sf_mode x = MReturn 0) ∧ happened (EvDone 0 7) w_reply ∧
  (∃ x, sfs w_reply !! 2 = Some x ∧ pollable x ∧ sf_mode x = MReturn 2) ∧ happened (EvDrop 2 DUserMsg) w_reply ∧
  0 < times (accepted 2) w_reply ∧
  (∃ rc, rcvs w_reply !! 0 = Some rc ∧ rc_live rc = true ∧ rc_st rc = XIdle ∧ rc_m rc = 1) ∧ happened (EvDone 1 8) w_reply.
Proof.
  split; [exact reach_w_reply|]. split; [apply quietb_spec; vm|].
  split; [eexists; split; [vm|done]|]. split; [apply (happened_spec 18); vm|].
  split; [eexists; split; [vm|done]|]. split; [apply (happened_spec 5); vm|].
  split; [apply (proj1 (Nat.ltb_lt 0 _)); vm|]. split; [eexists; split; [vm|done]|]. apply (happened_spec 11); vm.
Qed.
Example C29_example_disconnected : reachable w_fail0 ∧ quiet w_fail0 ∧
  (∃ x, sfs w_fail0 !! 1 = Some x ∧ pollable x ∧ message_of x = Some 1) ∧ happened (EvDrop 1 DClosed) w_fail0 ∧
  times (accepted 1) w_fail0 = 0.
Proof.
  split; [exact reach_w_fail0|]. split; [apply quietb_spec; vm|].
  split; [eexists; split; [vm|done]|]. split; [apply (happened_spec 0); vm|vm].
Qed.

(** ** C30 *)
Theorem C30_outcomes : ∀ s f x o, reachable s → happened (EvSend f o) s → sfs s !! f = Some x →
  match sf_mode x with
  | MReturn _ => o = OPending ∨ (∃ v, o = OValue v) ∨ o = OErrDisconnected ∨ o = OErrInterrupted
  | MDetached _ => o = OPending ∨ (∃ y, o = OReceiver y) ∨ o = OErrDisconnected
  | MBroadcast => o = OPending ∨ o = OOk ∨ o = OErrDisconnected
  end.
Proof. exact c30. Qed.
Print Assumptions C30_outcomes.
Example C30_example : reachable w_reply ∧ happened (EvSend 1 (OReceiver 0)) w_reply ∧
  option_map sf_mode (sfs w_reply !! 1) = Some (MDetached None).
Proof. split; [exact reach_w_reply|]. split; [apply (happened_spec 14); vm|vm]. Qed.
Example C30_example_broadcast : reachable w_gone ∧ happened (EvSend 2 OOk) w_gone ∧ happened (EvSend 3 OPending) w_gone ∧
  option_map sf_mode (sfs w_gone !! 3) = Some MBroadcast.
Proof. split; [exact reach_w_gone|]. split_and!; [apply (happened_spec 3); vm|apply (happened_spec 2); vm|vm]. Qed.

(** ** C41 *)
Theorem C41_no_internal_panic : ∀ s, reachable s → ¬ happened EvPanic s ∧ (∀ f, ¬ happened (EvSend f OPanic) s) ∧ (∀ x, ¬ happened (EvReceiver x OPanic) s).
Proof. exact c41. Qed.
Print Assumptions C41_no_internal_panic.
Example C41_example : reachable w_life ∧ reachable w_gone ∧ 0 < length (log w_life).
Proof. split; [exact reach_w_life|]. split; [exact reach_w_gone|]. apply (proj1 (Nat.ltb_lt 0 _)); vm. Qed.

(** ** C50 *)
Theorem C50_last_reference : ∀ s, reachable s → abandoned s →
  (∀ f x, sfs s !! f = Some x → pollable x → ∃ o, o ≠ OPending ∧ o ≠ OPanic ∧ resolves_to s f o) ∧
  (∀ x rc, rcvs s !! x = Some rc → rc_live rc = true → rc_st rc = XIdle → ∃ o, o ≠ OPending ∧ o ≠ OPanic ∧ receiver_resolves_to s x o) ∧
  (∀ m, m < length (reps s) → over m s).
Proof. exact c50. Qed.
Print Assumptions C50_last_reference.
Example C50_example : reachable w_gone ∧ abandoned w_gone ∧
  (∃ x, sfs w_gone !! 0 = Some x ∧ pollable x) ∧ (∃ x, sfs w_gone !! 1 = Some x ∧ pollable x) ∧
  (∃ x, sfs w_gone !! 3 = Some x ∧ pollable x ∧ sf_mode x = MBroadcast).
Proof.
  split; [exact reach_w_gone|]. split; [apply abandonedb_spec; vm|].
  split_and!; (eexists; split; [vm|done]).
Qed.
