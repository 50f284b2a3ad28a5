(** The property statements, derived from the invariants (part C: broadcasts, capacity of broadcasts,
    disconnection). *)
From stdpp Require Import base numbers list list_numbers.
From Coq Require Import Lia.
From Verif Require Import Prio Heap State Model HeapProofs Frame Lib InvBusy InvCount Effects InvMsg InvMsg2
  InvHeap InvOne InvOne2 InvDisc InvWait InvWait2 InvFut InvCell WaitSpec InvWs InvBlk Mono InvSend InvErr InvBc InvLag InvConn Spec Bridge
  FinalA FinalB FinalC FinalE FinalF Witness WitnessB WitnessC ClaimsA.

Lemma c05_once : ∀ s i, reachable s → times (broadcasted i) s ≤ 1.
Proof. intros. rch. by apply bcast_once. Qed.
Lemma c05_reaches : ∀ s o x qs b, reachable s → newly s (step s o) (EvBcast x qs) → owned_queue s b → b ∈ qs.
Proof. intros. rch. by eapply bcast_reaches. Qed.
Lemma c05_copies : ∀ s x qs b, reachable s → happened (EvBcast x qs) s →
  (b ∈ qs → copies (bm_id x) b s + got (bm_id x) b s ≤ 1 ∧ (owned_queue s b → copies (bm_id x) b s + got (bm_id x) b s = 1)) ∧
  (b ∉ qs → copies (bm_id x) b s + got (bm_id x) b s = 0).
Proof. intros. rch. by apply bcast_copies. Qed.

Lemma c06 : ∀ s s' x qs b, reachable s → later s s' → happened (EvBcast x qs) s → bqueues s !! b = None →
  copies (bm_id x) b s' = 0 ∧ got (bm_id x) b s' = 0.
Proof. intros. rch. by eapply bcast_not_later. Qed.
Lemma c06_clone : ∀ s t, reachable s → next_action s t UCloneReg →
  hols (step s (Step t)) = hols s ++ [HO (length (bqueues s)) HMailbox true 0] ∧ bqueues s !! length (bqueues s) = None.
Proof. intros. rch. by apply clone_new. Qed.

Lemma c08_put : ∀ s t b, reachable s → next_action s t UStopAll → owned_queue s b →
  copies (nbm s) b (step s (Step t)) = 1 ∧ BStop (nbm s) ∈ backlog (step s (Step t)) b.
Proof. intros. rch. by apply stop_put. Qed.
Lemma c08_first : ∀ s t r h i, reachable s → next_action s t (UTryRecv r) → hols s !! r = Some h → BStop i ∈ backlog s (h_bq h) →
  ∃ j, newly s (step s (Step t)) (EvRecv r (ToAll (BStop j))).
Proof. intros. rch. by eapply stop_first. Qed.
Lemma c08_breaks : ∀ s r b k w i, hols s !! r = Some (HO b (HDispNew (ToAll (BStop i))) k w) →
  ∃ n, newly s (run s (ARun r :: replicate n (Step (length (thr s))))) (EvFlow r true).
Proof. exact stop_breaks. Qed.

Lemma c17 : ∀ s b n, reachable s → cap s = Some n → cnt ordinary (backlog s b) ≤ n.
Proof. intros. rch. by apply bcast_bound. Qed.

Lemma c18 : ∀ c ops s x b0, s = run (init c) ops → keeps (init c) ops → no_void_broadcast s →
  blocked_bcast s x → owned_queue s b0 → ∃ n b, cap s = Some n ∧ kept_queue s b ∧ n ≤ length (backlog s b).
Proof. intros c ops s x b0 -> Hk Hn. apply blocked_lag; [apply reach_run, reach_init|by apply lag_reach]. Qed.
Lemma c18_refuted : ∃ s x b0, reachable s ∧ quiet s ∧ blocked_bcast s x ∧ owned_queue s b0 ∧
  ∀ n b, cap s = Some n → owned_queue s b → length (backlog s b) < n.
Proof.
  exists w_stale2, (BM 1 0), 0. split; [exact (reach_later _ _ reach_w_stale later_w_stale)|]. split; [apply quietb_spec; vm|].
  split; [exists 0, (Some 2); vm|].
  split; [eapply (owned_spec 0); [vm|done|done]|]. intros n b Hn Hb.
  assert (cap w_stale2 = Some 1) as E by vm. rewrite E in Hn. injection Hn as <-.
  apply Nat.ltb_lt. revert b Hb. apply (all_owned_spec (λ b, length (backlog w_stale2 b) <? 1)). vm.
Qed.

Lemma c19_bound : ∀ s b, reachable s → owned_queue s b → length (uq s) + length (backlog s b) ≤ chan_len s.
Proof. intros. rch. by apply len_bound. Qed.
Lemma c19_exact : ∀ c ops s b0, s = run (init c) ops → keeps (init c) ops → no_void_broadcast s → owned_queue s b0 →
  ∃ b, kept_queue s b ∧ chan_len s = length (uq s) + length (backlog s b) ∧
       ∀ b', kept_queue s b' → length (backlog s b') ≤ length (backlog s b).
Proof. intros c ops s b0 -> Hk Hn. apply len_exact; [apply reach_run, reach_init|by apply lag_reach]. Qed.

Lemma c24_fails : ∀ s f x p k, reachable s → sfs s !! f = Some x → sf_live x = true → sf_st x = SNew p k → ¬ is_conn s →
  resolves_to s f OErrDisconnected.
Proof. intros s f x p k ???? ?%not_conn_disc. by eapply resolve_new_disc. Qed.
Lemma c24_only_fails : ∀ s s' f x p k o, reachable s → later s s' → sfs s !! f = Some x → sf_st x = SNew p k → ¬ is_conn s →
  newly s s' (EvSend f o) → o = OErrDisconnected.
Proof. intros s s' f x p k o ???? ?%not_conn_disc ?. rch. by eapply disc_only_fails. Qed.
Lemma c24_not_queued : ∀ s s' f x u k, reachable s → later s s' → sfs s !! f = Some x → sf_st x = SNew (PU u) k → ¬ is_conn s →
  times (accepted (um_id u)) s' = 0 ∧ blocked (um_id u) s' = 0.
Proof. intros s s' f x u k ???? ?%not_conn_disc. rch. by eapply disc_never_accepted. Qed.
Lemma c24_not_broadcast : ∀ s s' f x y k, reachable s → later s s' → sfs s !! f = Some x → sf_st x = SNew (PB y) k → ¬ is_conn s →
  (∀ z qs, bm_id z = bm_id y → ¬ happened (EvBcast z qs) s') ∧ (∀ z, bm_id z = bm_id y → ¬ blocked_bcast s' z).
Proof. intros s s' f x y k ???? ?%not_conn_disc. rch. by eapply disc_never_put. Qed.
Lemma c24_only_if : ∀ s f, reachable s → happened (EvSend f OErrDisconnected) s → ¬ is_conn s.
Proof. intros. rch. apply not_conn_disc. by eapply err_disc. Qed.

(** Refutations by concrete executions. *)
Lemma c04_refuted : ∃ s m, reachable s ∧ quiet s ∧ 0 < mailbox_objects s ∧ happened (EvAccept m) s ∧ happened (EvDrop m DWindow) s.
Proof.
  exists w_window, 0. split; [exact reach_w_window|]. split; [apply quietb_spec; vm|]. split; [apply Nat.ltb_lt; vm|].
  split; [apply (happened_spec 2); vm|apply (happened_spec 1); vm].
Qed.
Lemma c27_refuted : ∃ s f x, reachable s ∧ quiet s ∧ rxc s = 0 ∧ sfs s !! f = Some x ∧ pollable x ∧ resolves_to s f OPending.
Proof.
  exists w_late, 0, (SF SDone (MReturn 0) true 0). split; [exact reach_w_late|]. split; [apply quietb_spec; vm|]. split; [vm|]. split; [vm|].
  split; [done|]. apply (resolves_spec 1 _ _ _ 0 1); vm.
Qed.
Lemma c34_refuted : ∃ s j, reachable s ∧ quiet s ∧ ¬ is_conn s ∧ newly s (step s (APollJoin j)) (EvJoin j false).
Proof.
  exists w_join, 0. split; [exact reach_w_join|]. split; [apply quietb_spec; vm|].
  split; [|apply (newly_spec 0 1); vm]. intros [_ H]. assert (txc w_join = 0) as E by vm. lia.
Qed.
Lemma c43_refuted : ∃ s r h m, reachable s ∧ quiet s ∧ hols s !! r = Some h ∧ h_st h = HRun m ∧
  ∃ r2 k, newly s (drive s (AStopAll r :: recv 1 r2)) (EvRecv r2 (ToOne k)).
Proof.
  exists w_nostop, 2, (HO 0 (HRun (ToOne (UM 0 0))) true 1), (ToOne (UM 0 0)). split; [exact reach_w_nostop|].
  split; [apply quietb_spec; vm|]. split; [vm|]. split; [done|]. exists 3, (UM 1 0). apply (newly_spec 0 1); vm.
Qed.
Lemma c46_refuted : ∃ s k, reachable s ∧ quiet s ∧ blocked_msg s k ∧ um_val k ≠ 0%N ∧ Forall (λ m, um_val m = 0%N) (uq s).
Proof.
  exists w_share, (UM 1 5). split; [exact reach_w_share|]. split; [apply quietb_spec; vm|]. split; [exists 0, (Some 1); vm|].
  split; [done|]. assert (uq w_share = [UM 0 0]) as -> by vm. by constructor.
Qed.
