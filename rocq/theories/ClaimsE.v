(** The property statements, derived from the invariants (part E: wake-ups and join handles). *)
From stdpp Require Import base numbers list list_numbers.
From Coq Require Import Lia.
From Verif Require Import Prio Heap State Model HeapProofs Frame Lib InvBusy InvCount Effects InvMsg InvMsg2
  InvHeap InvOne InvOne2 InvDisc InvFut InvCell Mono Spec Bridge WakeRel InvWake InvFresh InvJoin FinalH
  Witness WitnessB WitnessC WitnessE ClaimsA.

Lemma c31_woken : ∀ s r h o, reachable s → hols s !! r = Some h → h_st h = HRecvWait o → ¬ idle s r → woken s (h_wk h).
Proof. intros. rch. by eapply recv_woken. Qed.
Lemma c31_ready : ∀ s r h o a, reachable s → hols s !! r = Some h → h_st h = HRecvWait o → receive_resolves_to s r a → woken s (h_wk h).
Proof. intros. rch. by eapply recv_semantic. Qed.
Lemma c31_fresh : ∀ s r h, reachable s → hols s !! r = Some h → (h_st h = HRecvNew ∨ ∃ o, h_st h = HRecvWait o) →
  ∃ h', hols (step s (APollRecv r)) !! r = Some h' ∧ h_wk h' = nwk s ∧ ¬ woken (step s (APollRecv r)) (h_wk h').
Proof. intros. rch. by eapply recv_fresh. Qed.

Lemma c32_woken : ∀ s f x, reachable s → sfs s !! f = Some x → send_pending x → ¬ send_waits s x → woken s (sf_wk x).
Proof. intros. rch. by eapply send_woken. Qed.
Lemma c32_ready : ∀ s f x o, reachable s → sfs s !! f = Some x → send_pending x → resolves_to s f o → o ≠ OPending → woken s (sf_wk x).
Proof. intros. rch. by eapply send_semantic. Qed.
Lemma c32_fresh : ∀ s f x, reachable s → sfs s !! f = Some x → sf_live x = true → (∃ p k, sf_st x = SNew p k) ∨ send_pending x →
  ∃ x', sfs (step s (APollSend f)) !! f = Some x' ∧ sf_wk x' = nwk s ∧ ¬ woken (step s (APollSend f)) (sf_wk x').
Proof. intros. rch. by eapply send_fresh. Qed.
Lemma c32_receiver_woken : ∀ s i x, reachable s → receiver_pending s i x → ¬ receiver_waits s x → woken s (rc_wk x).
Proof. intros. rch. by eapply rcv_woken. Qed.
Lemma c32_receiver_ready : ∀ s i x o, reachable s → receiver_pending s i x → receiver_resolves_to s i o → o ≠ OPending → woken s (rc_wk x).
Proof. intros. rch. by eapply rcv_semantic. Qed.

Lemma c33_only : ∀ s o j, reachable s → newly s (step s o) (EvJoin j true) → ¬ is_conn s.
Proof. intros. rch. by eapply join_only. Qed.
Lemma shutdowns_msum s : shutdowns s = msum g_rs s.
Proof. apply todo_sum. by b2n. Qed.
Lemma c33_end : ∀ s j x, reachable s → mailbox_objects s = 0 → mailbox_calls s = 0 → shutdowns s = 0 → jhs s !! j = Some x →
  (jh_live x = true → newly s (step s (APollJoin j)) (EvJoin j true)) ∧ (join_pending s j → woken s (jh_wk x)).
Proof. intros s j x Hr H1 H2 H3 Hj. pose proof (c21 s Hr) as Hc. rch. rewrite shutdowns_msum in H3. apply join_ends; [done|lia|done..]. Qed.
Lemma c33_fresh : ∀ s j x, reachable s → jhs s !! j = Some x → jh_live x = true →
  ∃ x', jhs (step s (APollJoin j)) !! j = Some x' ∧ jh_wk x' = nwk s ∧ ¬ woken (api (APollJoin j) s) (jh_wk x').
Proof. intros. rch. by eapply join_fresh. Qed.

Lemma c34_late : ∀ s a x, reachable s → ¬ is_conn s → addrs s !! a = Some x → ad_live x = true →
  newly s (run s (AJoin a :: replicate 2 (Step (length (thr s))) ++ [APollJoin (length (jhs s))])) (EvJoin (length (jhs s)) true).
Proof. intros. rch. by eapply join_late. Qed.
Lemma c34_end : ∀ s j x, reachable s → quiet s → mailbox_objects s = 0 → jhs s !! j = Some x → jh_live x = true →
  newly s (step s (APollJoin j)) (EvJoin j true).
Proof.
  intros s j x Hr Hq Ho Hj Hl. pose proof (c21 s Hr) as Hc. assert (mailbox_calls s = 0) as Hm. { unfold mailbox_calls. erewrite todo_sum; [apply (quiet_msum (λ u, match u with URxDec | UCloneReg => 1 | _ => 0 end)), Hq|]. by b2n. }
  eapply c33_end; try done. rewrite shutdowns_msum. by apply quiet_msum.
Qed.
