(** Property theorems, part H. *)
From stdpp Require Import base numbers list list_numbers.
From Coq Require Import Lia.
From Verif Require Import Prio Heap State Model Lib Spec Spec2 Witness WitnessF ClaimsH.

(** ** C42: wherever a message is (send future, blocked, queued, assigned, received, handled), it carries the
    priority that was set last; a priority is set by creating the message (0) or by [priority] on its unpolled
    send future; [priority] on a polled future panics and changes nothing but the future itself. *)
Theorem C42_last_priority : ∀ s k, reachable s → exists_as s k → last_set s (um_id k) (um_val k).
Proof. exact c42. Qed.
Print Assumptions C42_last_priority.
Theorem C42_who_sets : ∀ s o m n, newly s (step s o) (EvPrio m n) →
  (∃ a x, o = ASend a ∧ addrs s !! a = Some x ∧ ad_live x = true ∧ m = length (reps s) ∧ n = 0%N) ∨
  (∃ f x k b, o = APriority f n ∧ sfs s !! f = Some x ∧ sf_live x = true ∧ sf_st x = SNew (PU k) b ∧ um_id k = m).
Proof. exact c42_who. Qed.
Print Assumptions C42_who_sets.
Theorem C42_sets : ∀ s f x k b n, sfs s !! f = Some x → sf_live x = true → sf_st x = SNew (PU k) b →
  newly s (step s (APriority f n)) (EvPrio (um_id k) n) ∧
  sfs (step s (APriority f n)) !! f = Some (SF (SNew (PU (UM (um_id k) n)) b) (sf_mode x) true (sf_wk x)).
Proof. exact c42_sets. Qed.
Print Assumptions C42_sets.
Theorem C42_late_panics : ∀ s f x n, reachable s → sfs s !! f = Some x → sf_live x = true → sf_st x ≠ SBusy → (∀ p k, sf_st x ≠ SNew p k) →
  between s (step s (APriority f n)) [EvUserPanic f] ∧ channel_same s (step s (APriority f n)) ∧
  cells1 (step s (APriority f n)) = cells1 s ∧ cellsA (step s (APriority f n)) = cellsA s ∧
  reps (step s (APriority f n)) = reps s ∧ ∀ g, g ≠ f → sfs (step s (APriority f n)) !! g = sfs s !! g.
Proof. exact c42_late. Qed.
Print Assumptions C42_late_panics.
Theorem C42_broadcast_priority : ∀ c ops i v, exists_bcast_as (run (init c) ops) i v → last_bset (init c) ops i v.
Proof. exact c42_bcast. Qed.
Print Assumptions C42_broadcast_priority.
Example C42_example : reachable w_prio ∧ exists_as w_prio (UM 0 3) ∧ last_set w_prio 0 3 ∧
  (∃ x, sfs w_prio !! 0 = Some x ∧ sf_live x = true ∧ sf_st x = SDone) ∧
  (∃ x, sfs w_prio !! 1 = Some x ∧ sf_live x = true ∧ sf_st x = SNew (PU (UM 1 0)) true) ∧
  newly w_prio (step w_prio (APriority 1 8)) (EvPrio 1 8) ∧
  (∃ ops, w_prio = run (init (Some 2)) ops ∧ exists_bcast_as w_prio 0 4).
Proof.
  split; [exact reach_w_prio|]. split; [do 2 right; left; vm_compute; by left|].
  split; [exists (take 5 (log w_prio)), (drop 6 (log w_prio)); split; [vm|vm_compute; intros n H; repeat (apply elem_of_cons in H as [H|H]; [discriminate H|]); by apply elem_of_nil in H]|].
  split; [eexists; split; [vm|done]|]. split; [eexists; split; [vm|done]|].
  split; [apply (newly_spec 0 1); vm|].
  destruct (drive_run [ASend 0; APriority 0 5; APriority 0 3; APollSend 0; ASend 0; ABroadcast 0; APriority 2 4; APollSend 2] (init (Some 2))) as [ops Hops].
  exists ops. split; [exact Hops|]. do 2 right. left. exists 0, (BQ 1 [BM 0 4]). split; [vm|by left].
Qed.

(** ** C44: a dispatch reports Break exactly if its handler called [stop_self] or it dispatched a stop message;
    the call of [stop_self] changes nothing but the flag of the running dispatch. *)
Theorem C44_break_iff : ∀ c ops r b, happened (EvFlow r b) (run (init c) ops) →
  (b = true ↔ stopped_self (init c) ops r ∨ stop_dispatched (init c) ops r).
Proof. exact c44_iff. Qed.
Print Assumptions C44_break_iff.
Theorem C44_frame : ∀ s r h a, hols s !! r = Some h → h_st h = HRun a →
  same_but_hol r s (step s (AStopSelf r)) ∧ hols (step s (AStopSelf r)) !! r = Some (HO (h_bq h) (HRun a) false (h_wk h)).
Proof. exact c44_frame. Qed.
Print Assumptions C44_frame.
Example C44_example : (∃ ops, w_stopself = run (init None) ops ∧ happened (EvFlow 2 true) w_stopself) ∧
  (∃ h, reachable w_run ∧ hols w_run !! 2 = Some h ∧ h_st h = HRun (ToOne (UM 0 0)) ∧ hols w_run !! 1 = Some (HO 1 HMailbox true 0)).
Proof.
  split.
  - destruct (drive_run ([AMbClone 0] ++ send 0 0 ++ recv 0 2 ++ [ADispatch 2; ARun 2; AStopSelf 2; AFinish 2 7]) (init None)) as [ops Hops].
    exists ops. split; [exact Hops|]. apply (happened_spec 0). vm.
  - eexists. split; [exact reach_w_run|]. split; [vm|]. split; [done|vm].
Qed.

(** ** C45: dropping the send future of a blocked message removes exactly this message: after the three actions of
    the call nothing else differs ([C45_only_own_message]); the action that removes the message changes nothing else
    under any interleaving ([C45_one_step]); the same for a blocked broadcast; and a slot that becomes free while
    some message is still blocked is given to a blocked message. *)
Theorem C45_only_own_message : ∀ s f x c m l w k, reachable s → sfs s !! f = Some x → sf_live x = true → message_of x = Some m → sf_st x = SWait c →
  cells1 s !! c = Some (WC l (WActive w k)) →
  let t := length (thr s) in let s' := run s [ADropSend f; Step t; Step t; Step t] in
  only_cancelled f c m s s' ∧ between s s' [EvDrop m DSendDropped] ∧ blocked m s' = 0 ∧ thr s' = thr s ++ [[]].
Proof. exact c45. Qed.
Print Assumptions C45_only_own_message.
Theorem C45_one_step : ∀ s t c l w k, reachable s → next_action s t (UCellDrop1 c) → cells1 s !! c = Some (WC l (WActive w k)) →
  channel_same s (step s (Step t)) ∧ bqs (step s (Step t)) = bqs s ∧ cellsA (step s (Step t)) = cellsA s ∧
  (∀ d, d ≠ c → cells1 (step s (Step t)) !! d = cells1 s !! d) ∧ ¬ blocked_msg (step s (Step t)) k ∧
  sfs (step s (Step t)) = sfs s ∧ reps (step s (Step t)) = reps s ∧ log (step s (Step t)) = log s ∧
  ∀ q, q ≠ t → thr (step s (Step t)) !! q = thr s !! q.
Proof. exact c45_step. Qed.
Print Assumptions C45_one_step.
Theorem C45_broadcast : ∀ s f x c w b, reachable s → sfs s !! f = Some x → sf_live x = true → sf_mode x = MBroadcast → sf_st x = SWait c →
  cellsA s !! c = Some (WC true (WActive w b)) →
  let t := length (thr s) in let s' := run s [ADropSend f; Step t] in
  only_cancelled_bcast f c s s' ∧ log s' = log s ∧ ¬ (∃ w', cellsA s' !! c = Some (WC true (WActive w' b))) ∧ thr s' = thr s ++ [[]].
Proof. exact c45_bcast. Qed.
Print Assumptions C45_broadcast.
Theorem C45_slot : ∀ s t r n k y, reachable s → cap s = Some n → length (uq s) = n → blocked_msg s k → next_action s t (UTryRecv r) →
  newly s (step s (Step t)) (EvRecv r (ToOne y)) → ∃ m, 0 < blocked m s ∧ newly s (step s (Step t)) (EvAccept m) ∧ blocked m (step s (Step t)) = 0.
Proof. exact c45_slot. Qed.
Print Assumptions C45_slot.
Example C45_example :
  (∃ x, reachable w_blocked ∧ sfs w_blocked !! 1 = Some x ∧ sf_live x = true ∧ message_of x = Some 1 ∧ sf_st x = SWait 0 ∧
     cells1 w_blocked !! 0 = Some (WC true (WActive (Some 1) (UM 1 0)))) ∧
  (reachable w_cancel ∧ next_action w_cancel 3 (UCellDrop1 0) ∧ cells1 w_cancel !! 0 = Some (WC true (WActive (Some 1) (UM 1 0)))) ∧
  (∃ x, reachable w_bblocked ∧ sfs w_bblocked !! 1 = Some x ∧ sf_live x = true ∧ sf_mode x = MBroadcast ∧ sf_st x = SWait 0 ∧
     cellsA w_bblocked !! 0 = Some (WC true (WActive (Some 1) (BM 1 0)))) ∧
  (reachable w_slot ∧ cap w_slot = Some 1 ∧ length (uq w_slot) = 1 ∧ blocked_msg w_slot (UM 1 0) ∧ next_action w_slot 3 (UTryRecv 1) ∧
     newly w_slot (step w_slot (Step 3)) (EvRecv 1 (ToOne (UM 0 0)))).
Proof.
  split; [|split; [|split]].
  - eexists. split; [apply drive_reachable|]. split; [vm|]. do 3 (split; [done|]). vm.
  - split; [exact reach_w_cancel|]. split; [eexists; vm|vm].
  - eexists. split; [exact reach_w_bblocked|]. split; [vm|]. do 3 (split; [done|]). vm.
  - split; [exact reach_w_slot|]. do 2 (split; [vm|]). split; [exists 0; eexists; vm|]. split; [eexists; vm|]. apply (newly_spec 0 2); vm.
Qed.
