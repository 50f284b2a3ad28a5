(** The property statements, derived from the invariants (part H: priorities, stop_self, cancelled sends). *)
From stdpp Require Import base numbers list list_numbers.
From Coq Require Import Lia.
From Verif Require Import Prio Heap State Model HeapProofs Frame Lib InvBusy InvCount Effects InvMsg InvMsg2
  InvHeap InvOne InvOne2 InvDisc InvFut InvCell WaitSpec InvWs Mono Spec Bridge Spec2 InvBprio FinalI
  Witness ClaimsA.

Lemma c42 : ∀ s k, reachable s → exists_as s k → last_set s (um_id k) (um_val k).
Proof. intros. rch. by apply prio_last. Qed.
Lemma c42_who : ∀ s o m n, newly s (step s o) (EvPrio m n) →
  (∃ a x, o = ASend a ∧ addrs s !! a = Some x ∧ ad_live x = true ∧ m = length (reps s) ∧ n = 0%N) ∨
  (∃ f x k b, o = APriority f n ∧ sfs s !! f = Some x ∧ sf_live x = true ∧ sf_st x = SNew (PU k) b ∧ um_id k = m).
Proof. exact prio_who. Qed.
Lemma c42_sets : ∀ s f x k b n, sfs s !! f = Some x → sf_live x = true → sf_st x = SNew (PU k) b →
  newly s (step s (APriority f n)) (EvPrio (um_id k) n) ∧
  sfs (step s (APriority f n)) !! f = Some (SF (SNew (PU (UM (um_id k) n)) b) (sf_mode x) true (sf_wk x)).
Proof. intros. by apply prio_sets. Qed.
Lemma c42_late : ∀ s f x n, reachable s → sfs s !! f = Some x → sf_live x = true → sf_st x ≠ SBusy → (∀ p k, sf_st x ≠ SNew p k) →
  between s (step s (APriority f n)) [EvUserPanic f] ∧ channel_same s (step s (APriority f n)) ∧
  cells1 (step s (APriority f n)) = cells1 s ∧ cellsA (step s (APriority f n)) = cellsA s ∧
  reps (step s (APriority f n)) = reps s ∧ ∀ g, g ≠ f → sfs (step s (APriority f n)) !! g = sfs s !! g.
Proof. intros. by eapply prio_late. Qed.
Lemma c42_bcast : ∀ c ops i v, exists_bcast_as (run (init c) ops) i v → last_bset (init c) ops i v.
Proof. exact bprio_last. Qed.

Lemma c44_iff : ∀ c ops r b, happened (EvFlow r b) (run (init c) ops) →
  (b = true ↔ stopped_self (init c) ops r ∨ stop_dispatched (init c) ops r).
Proof. exact flow_iff. Qed.
Lemma c44_frame : ∀ s r h a, hols s !! r = Some h → h_st h = HRun a →
  same_but_hol r s (step s (AStopSelf r)) ∧ hols (step s (AStopSelf r)) !! r = Some (HO (h_bq h) (HRun a) false (h_wk h)).
Proof. exact stop_self_frame. Qed.

Lemma c45 : ∀ s f x c m l w k, reachable s → sfs s !! f = Some x → sf_live x = true → message_of x = Some m → sf_st x = SWait c →
  cells1 s !! c = Some (WC l (WActive w k)) →
  let t := length (thr s) in let s' := run s [ADropSend f; Step t; Step t; Step t] in
  only_cancelled f c m s s' ∧ between s s' [EvDrop m DSendDropped] ∧ blocked m s' = 0 ∧ thr s' = thr s ++ [[]].
Proof. exact cancel_blocked. Qed.
Lemma c45_step : ∀ s t c l w k, reachable s → next_action s t (UCellDrop1 c) → cells1 s !! c = Some (WC l (WActive w k)) →
  channel_same s (step s (Step t)) ∧ bqs (step s (Step t)) = bqs s ∧ cellsA (step s (Step t)) = cellsA s ∧
  (∀ d, d ≠ c → cells1 (step s (Step t)) !! d = cells1 s !! d) ∧ ¬ blocked_msg (step s (Step t)) k ∧
  sfs (step s (Step t)) = sfs s ∧ reps (step s (Step t)) = reps s ∧ log (step s (Step t)) = log s ∧
  ∀ q, q ≠ t → thr (step s (Step t)) !! q = thr s !! q.
Proof. exact cancel_step. Qed.
Lemma c45_bcast : ∀ s f x c w b, reachable s → sfs s !! f = Some x → sf_live x = true → sf_mode x = MBroadcast → sf_st x = SWait c →
  cellsA s !! c = Some (WC true (WActive w b)) →
  let t := length (thr s) in let s' := run s [ADropSend f; Step t] in
  only_cancelled_bcast f c s s' ∧ log s' = log s ∧ ¬ (∃ w', cellsA s' !! c = Some (WC true (WActive w' b))) ∧ thr s' = thr s ++ [[]].
Proof.
  intros s f x c w b Hr Hf Hl Hm Hs Hc. eapply cancel_bcast; try done.
  destruct (chan_owned s) eqn:Ho; [done|exfalso]. destruct (unowned_empty s Hr Ho) as (_ & _ & Hw & _).
  apply reachable_reach in Hr. destruct (reach_ws s Hr) as (_ & W & _). destruct (W c) as [_ W2]. rewrite (at_some _ _ _ _ Hc), Hw in W2. cbn in W2. lia.
Qed.
Lemma c45_slot : ∀ s t r n k y, reachable s → cap s = Some n → length (uq s) = n → blocked_msg s k → next_action s t (UTryRecv r) →
  newly s (step s (Step t)) (EvRecv r (ToOne y)) → ∃ m, 0 < blocked m s ∧ newly s (step s (Step t)) (EvAccept m) ∧ blocked m (step s (Step t)) = 0.
Proof. exact slot_taken. Qed.
