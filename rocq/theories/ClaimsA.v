(** The property statements, derived from the invariants (part A: unicast messages,
    order, capacity, counts, connection). *)
From stdpp Require Import base numbers list list_numbers sorting.
From Coq Require Import Lia.
From Verif Require Import Prio Heap State Model HeapProofs Frame Lib InvBusy InvCount Effects InvMsg InvMsg2
  InvHeap InvOne InvOne2 InvDisc InvWait InvWait2 InvFut InvCell WaitSpec InvWs InvBlk Mono InvSend InvErr Spec Bridge
  FinalA FinalB FinalC FinalD Witness.

Ltac rch := match goal with H : reachable _ |- _ => apply reachable_reach in H end.

Lemma c01 : ∀ s m, reachable s →
  times (received m) s ≤ 1 ∧ times (handled m) s ≤ times (received m) s ∧ times (finished m) s ≤ times (handled m) s.
Proof. intros s m H. rch. by apply once. Qed.

Lemma c07 : ∀ s t r h a, reachable s → next_action s t (UTryRecv r) → hols s !! r = Some h →
  newly s (step s (Step t)) (EvRecv r a) → may_take s (h_bq h) a.
Proof. intros. rch. by eapply recv_top. Qed.
Lemma c07_ready : ∀ s t r h, reachable s → next_action s t (UTryRecv r) → hols s !! r = Some h →
  (uq s ≠ [] ∨ backlog s (h_bq h) ≠ [] ∨ txc s = 0) ↔ ∃ a, newly s (step s (Step t)) (EvRecv r a).
Proof. intros. rch. by eapply recv_ready. Qed.

Lemma c09 : ∀ b s l s', reachable s → drains b s l s' →
  (Shut ∉ l → pending_for s b ≡ₚ l ++ pending_for s' b) ∧
  (∀ a, a ∈ l → a ≠ Shut → a ∈ pending_for s b) ∧
  StronglySorted not_above l.
Proof. intros. rch. by eapply drains_spec. Qed.

(** Order of equal priorities. *)
Lemma c10_refuted : ∃ s m n, reachable s ∧ quiet s ∧ default_priorities s ∧ no_broadcasts s ∧
  before (EvAccept m) (EvAccept n) s ∧
  ∃ r q, before (EvHandle r (ToOne (UM n 0))) (EvHandle q (ToOne (UM m 0))) s.
Proof.
  exists w_fifo, 1, 2. split; [exact reach_w_fifo|]. split; [apply quietb_spec; vm|].
  split; [apply default_spec; vm|]. split; [apply no_broadcasts_spec; vm|].
  split; [apply (before_spec 27 30); [lia|vm|vm]|]. exists 2, 4. apply (before_spec 6 14); [lia|vm|vm].
Qed.

Lemma c11 : ∀ s t r m, reachable s → next_action s t (UTryRecv r) →
  newly s (step s (Step t)) (EvAccept m) →
  ∃ k, um_id k = m ∧ blocked_msg s k ∧ ∀ k', blocked_msg s k' → ple (um_prio k') (um_prio k).
Proof. intros. rch. by eapply admitted_max. Qed.
Lemma c11_refuted : ∃ s m n, reachable s ∧ quiet s ∧ default_priorities s ∧
  before (EvBlocked m) (EvBlocked n) s ∧ blocked m s = 1 ∧ happened (EvAccept n) s.
Proof.
  exists w_admit, 1, 2. split; [exact (later_reachable _ _ reach_w_blocked later_w_admit)|].
  split; [apply quietb_spec; vm|]. split; [apply default_spec; vm|].
  split; [apply (before_spec 3 6); [lia|vm|vm]|]. split; [vm|]. apply (happened_spec 1). vm.
Qed.

Lemma dropped_receivers_sum ops : dropped_receivers ops = Σ o_dh ops.
Proof. apply cnt_sum. by intros []. Qed.
Lemma c12 : ∀ n ops, length (uq (run (init (Some n)) ops)) ≤ n + dropped_receivers ops.
Proof. intros. rewrite dropped_receivers_sum. apply cap_bound. Qed.
Lemma c12_refuted : ∃ n ops, n < length (uq (run (init (Some n)) ops)).
Proof.
  exists 1. destruct (drive_run (recv 0 1 ++ send 0 0 ++ send 0 1 ++ [ADropHol 1]) (init (Some 1))) as [ops H].
  exists ops. rewrite <-H. apply Nat.ltb_lt. vm.
Qed.

Lemma c13 : ∀ s t f m k, reachable s → next_action s t (USendLock f (PU m) k) →
  (receiver_ready s → between s (step s (Step t)) [EvAccept (um_id m)] ∧ uq (step s (Step t)) = uq s) ∧
  (¬ receiver_ready s → at_capacity s (length (uq s)) →
     between s (step s (Step t)) [EvBlocked (um_id m)] ∧ blocked_msg (step s (Step t)) m ∧ uq (step s (Step t)) = uq s) ∧
  (¬ receiver_ready s → ¬ at_capacity s (length (uq s)) →
     between s (step s (Step t)) [EvAccept (um_id m)] ∧ uq (step s (Step t)) ≡ₚ m :: uq s).
Proof. intros. rch. by eapply send_decision. Qed.
Lemma c13_broadcast : ∀ s t f x k, reachable s → next_action s t (USendLock f (PB x) k) →
  (at_capacity s (tail s) → between s (step s (Step t)) [] ∧ blocked_bcast (step s (Step t)) x ∧
     bqueues (step s (Step t)) = bqueues s) ∧
  (¬ at_capacity s (tail s) → ∃ qs, between s (step s (Step t)) [EvBcast x qs] ∧
     (∀ q, q ∈ qs ↔ q ∈ bqs s ∧ ∃ b, bqueues s !! q = Some b ∧ 0 < bq_refs b) ∧
     cellsA (step s (Step t)) = cellsA s).
Proof. intros. rch. by eapply bcast_decision. Qed.

(** [receiver_ready] in terms of receive futures. *)
Lemma c13_idle : ∀ s r, reachable s → idle s r → being_notified s r ∨ receiver_ready s.
Proof.
  intros s r Hr (h & o & rx & w & Hh & Hst & Ho). rch.
  destruct (reach_own s Hr o) as [H1 _]. destruct (reach_handle s Hr o) as [_ H2].
  assert (at_ (h_wait o) (hols s) r = 1) as Hw.
  { rewrite (at_some _ _ _ _ Hh). unfold h_wait. rewrite Hst. unfold isn. by rewrite Nat.eqb_refl. }
  pose proof (at_le_sum (h_wait o) (hols s) r) as Hle.
  rewrite (at_some _ _ _ _ Ho) in H1; rewrite (at_some _ _ _ _ Ho) in H2; destruct rx; cbn in H1, H2; [|lia].
  destruct (decide (0 < msum (g_no o) s)) as [Hn|Hn].
  { left. apply msum_pos in Hn as (t & p & u & Ht & Hu & Hg). destruct u; cbn in Hg; try lia.
    unfold isn in Hg. destruct (Nat.eqb_spec o0 o); [subst|lia]. exists h, o, t, p. done. }
  right. exists o, w. split; [|done]. assert (0 < Σ (isn o) (wrx s)) as (x & Hx & Hg)%sum_pos by lia.
  unfold isn in Hg. destruct (Nat.eqb_spec x o); [by subst|lia].
Qed.
Lemma c13_ready : ∀ s, reachable s → receiver_ready s →
  (∃ r, idle s r) ∨ 0 < todo (λ u, match u with UPollOne _ _ | UOneDrop _ => true | _ => false end) s.
Proof.
  intros s Hr (o & w & Ho & Hone). rch. destruct (reach_own s Hr o) as [H1 _].
  rewrite (at_some _ _ _ _ Hone) in H1. cbn in H1.
  destruct (decide (0 < msum (g_one o) s)) as [Hm|Hm].
  - right. rewrite (todo_sum (λ u, match u with UPollOne _ _ | UOneDrop _ => 1 | _ => 0 end)) by b2n.
    eapply Nat.lt_le_trans; [exact Hm|]. apply msum_le. intros []; cbn; try lia; unfold isn; case_match; lia.
  - left. assert (0 < Σ (h_wait o) (hols s)) as (h & [r Hh]%elem_of_list_lookup & Hg)%sum_pos by lia.
    exists r. unfold h_wait in Hg. destruct (h_st h) eqn:Est; try lia. unfold isn in Hg. destruct (Nat.eqb_spec o0 o); [subst|lia].
    exists h, o, true, w. done.
Qed.

Lemma c14 : ∀ s m, reachable s → 0 < blocked m s → ∃ n, cap s = Some n ∧ n ≤ length (uq s).
Proof. intros. rch. by eapply blocked_full. Qed.
Lemma c15 : ∀ s r h, reachable s → idle s r → ¬ being_notified s r → hols s !! r = Some h →
  uq s = [] ∧ backlog s (h_bq h) = [].
Proof. intros. rch. by eapply idle_empty. Qed.
Lemma c15_quiet : ∀ s r h, reachable s → quiet s → idle s r → hols s !! r = Some h →
  uq s = [] ∧ backlog s (h_bq h) = [].
Proof. intros. eapply c15; try done. by apply quiet_not_notified. Qed.
Lemma c16 : ∀ s r m, reachable s → cap s ≠ Some 0 → 0 < blocked m s → idle s r → being_notified s r.
Proof. intros. rch. by eapply no_standoff. Qed.
Lemma c16_refuted : ∃ s r m, reachable s ∧ quiet s ∧ 0 < blocked m s ∧ idle s r ∧ is_conn s.
Proof.
  exists w_zero, 1, 0. split; [exact reach_w_zero|]. split; [apply quietb_spec; vm|].
  split; [apply Nat.ltb_lt; vm|]. split; [eexists _, 0, true, (Some 1); split_and!; vm|]. split; apply Nat.ltb_lt; vm.
Qed.

Lemma c20 : ∀ s, reachable s → txc s = strong_addresses s + strong_futures s + strong_calls s.
Proof. intros. rch. by apply strong_count. Qed.
Lemma c20_underflow : ∀ s t, reachable s → next_action s t UTxDec → 1 ≤ txc s.
Proof. intros. rch. by eapply tx_no_underflow. Qed.
Lemma c21 : ∀ s, reachable s → rxc s = mailbox_objects s + mailbox_calls s.
Proof. intros. rch. by apply mailbox_count. Qed.
Lemma c21_underflow : ∀ s t, reachable s → next_action s t URxDec → 1 ≤ rxc s.
Proof. intros. rch. by eapply rx_no_underflow. Qed.

Lemma c22 : ∀ s s', reachable s → later s s' → ¬ is_conn s → ¬ is_conn s'.
Proof. intros s s' H. rch. by apply disconnected_later. Qed.
Lemma c22_observed : ∀ s s', reachable s → later s s' → ¬ is_conn s →
  todo (λ u, match u with UConnLd2 _ => true | _ => false end) s = 0 →
  times (λ e, match e with EvConn _ b => b | _ => false end) s' = times (λ e, match e with EvConn _ b => b | _ => false end) s.
Proof.
  intros s s' H Hl Hc Ht. rch. unfold times. rewrite !(cnt_sum e_ct) by b2n.
  apply no_connected_again; try done. by rewrite <-(todo_sum g_ld2 (λ u, match u with UConnLd2 _ => true | _ => false end)) by b2n.
Qed.

Lemma c23 : ∀ s a, reachable s → addrs s !! a = Some (AD false false true) →
  (0 < strong_addresses s + strong_futures s + strong_calls s →
    log (step s (AUpgrade a)) = EvUpgrade a (Some (length (addrs s))) :: log s ∧
    addrs (step s (AUpgrade a)) = addrs s ++ [AD true false true] ∧ txc (step s (AUpgrade a)) = S (txc s)) ∧
  (strong_addresses s + strong_futures s + strong_calls s = 0 →
    log (step s (AUpgrade a)) = EvUpgrade a None :: log s ∧ addrs (step s (AUpgrade a)) = addrs s ∧ txc (step s (AUpgrade a)) = 0).
Proof. intros. rch. by apply upgrade_spec. Qed.

Lemma c25 : ∀ s r, reachable s → quiet s → strong_addresses s + strong_futures s = 0 → ¬ idle s r.
Proof.
  intros s r H Hq H0. rch. apply shutdown_idle; try done. rewrite strong_count by done. unfold strong_calls.
  rewrite (todo_sum (λ u, match u with
             | UTxDec => 1
             | USendLd1 _ _ k | USendLd2 _ _ k | USendLock _ _ k => b2n k
             | _ => 0
             end)) by b2n.
  rewrite quiet_msum by done. lia.
Qed.

Lemma c26 : ∀ s t r h, reachable s → next_action s t (UTryRecv r) → hols s !! r = Some h →
  newly s (step s (Step t)) (EvRecv r Shut) →
  uq s = [] ∧ backlog s (h_bq h) = [] ∧ txc s = 0 ∧ (cap s ≠ Some 0 → ∀ m, blocked m s = 0).
Proof.
  intros s t r h Hr Ht Hh Hn. destruct (c07 _ _ _ _ _ Hr Ht Hh Hn) as (H1 & H2 & H3). split_and!; try done.
  intros Hc m. destruct (decide (0 < blocked m s)) as [Hb|]; [|lia].
  apply c14 in Hb as (n & Hn' & Hl); [|done]. rewrite H1 in Hl. cbn in Hl. destruct n; [done|lia].
Qed.
Lemma c26_refuted : ∃ s s' r m,
  reachable s ∧ later s s' ∧ quiet s ∧ quiet s' ∧ in_queue m s = 1 ∧ in_queue m s' = 1 ∧ newly s s' (EvRecv r Shut).
Proof.
  exists w_early0, w_early, 2, 0. split; [exact reach_w_early0|]. split; [exact later_w_early|].
  split; [apply quietb_spec; vm|]. split; [apply quietb_spec; vm|]. split; [vm|]. split; [vm|].
  apply (newly_spec 0 1); vm.
Qed.
