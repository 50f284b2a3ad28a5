(** The property statements, derived from the invariants (part D: cancellation, end of the last mailbox, stop_all,
    separate capacities). *)
From stdpp Require Import base numbers list list_numbers.
From Coq Require Import Lia.
From Verif Require Import Prio Heap State Model HeapProofs Frame Lib InvBusy InvCount Effects InvMsg InvMsg2
  InvHeap InvOne InvOne2 InvDisc InvWait InvWait2 InvFut InvCell WaitSpec InvWs InvBlk Mono InvSend InvErr InvBc InvLag InvConn InvEnd InvCalm Spec Bridge
  FinalA FinalB FinalC FinalE FinalF FinalG Witness WitnessB WitnessC WitnessD ClaimsA.

Lemma c04_back : ∀ s t o rx m, reachable s → next_action s t (UCancel o) → ones s !! o = Some (ON rx (OFull (CNewMsg m))) →
  in_queue (um_id m) (run s [Step t; Step t]) + in_flight (um_id m) (run s [Step t; Step t]) = 1.
Proof. intros. rch. by eapply put_back. Qed.
Lemma c04_sequential : ∀ c ops m, sequential (init c) ops → ¬ happened (EvDrop m DWindow) (run (init c) ops).
Proof. exact sequential_safe. Qed.

Lemma c27_blocked : ∀ s t s' f x m, reachable s → next_action s t URxShutdown → later (step s (Step t)) s' → quiet s' →
  0 < blocked m s → sfs s' !! f = Some x → pollable x → message_of x = Some m → resolves_to s' f OErrDisconnected.
Proof. intros. rch. by eapply after_blocked. Qed.
Lemma c27_queued : ∀ s t s' f x m, reachable s → next_action s t URxShutdown → later (step s (Step t)) s' → quiet s' →
  0 < in_queue m s → sfs s' !! f = Some x → pollable x → sf_mode x = MReturn m → resolves_to s' f OErrInterrupted.
Proof. intros. rch. by eapply after_queued. Qed.
Lemma c27_all : ∀ s t s', reachable s → next_action s t URxShutdown → sends_past_check s = 0 → later (step s (Step t)) s' → quiet s' →
  (∀ f x, sfs s' !! f = Some x → pollable x → ∃ o, o ≠ OPending ∧ o ≠ OPanic ∧ resolves_to s' f o) ∧
  (∀ i x, rcvs s' !! i = Some x → rc_live x = true → rc_st x = XIdle → ∃ o, o ≠ OPending ∧ o ≠ OPanic ∧ receiver_resolves_to s' i o).
Proof.
  intros s t s' Hr Hn Hp Hl Hq. rch. pose proof (shutdown_later s t s' Hr Hn Hp Hl) as He.
  pose proof (later_reach _ _ (reach_one s (Step t) Hr) Hl) as Hr'. split; intros; [by eapply ended_all|by eapply ended_rcv].
Qed.

Lemma c43_partial : ∀ s r h m b, reachable s → hols s !! r = Some h → h_st h = HRun m → 0 < txc s → owned_queue s b →
  ∃ i, BStop i ∈ backlog (run s [AStopAll r; Step (length (thr s))]) b.
Proof. intros s r [b0 st k w] m b Hr Hh Hs. cbn in Hs. subst st. rch. intros. by eapply stop_all_put. Qed.

Lemma c46_unicast : ∀ s t f m k, reachable s → next_action s t (USendLock f (PU m) k) → ¬ at_capacity s (length (uq s)) →
  between s (step s (Step t)) [EvAccept (um_id m)].
Proof.
  intros s t f m k Hr Hn Hc. destruct (c13 s t f m k Hr Hn) as (H1 & _ & H3).
  assert (receiver_ready s ∨ ¬ receiver_ready s) as [H|H]; [|by apply H1|by apply H3].
  destruct (existsb (λ o, match ones s !! o with Some (ON true (OEmpty _)) => true | _ => false end) (wrx s)) eqn:E.
  - left. apply existsb_exists in E as (o & Ho%elem_of_list_In & Hx). destruct (ones s !! o) as [[[] [w| | |]]|] eqn:Eo; try done. by exists o, w.
  - right. intros (o & w & Ho & Hx). apply Bool.not_true_iff_false in E. apply E, existsb_exists. exists o. rewrite <-elem_of_list_In, Hx. done.
Qed.
Lemma c46_broadcast : ∀ s t f x k, reachable s → next_action s t (USendLock f (PB x) k) → ¬ at_capacity s (tail s) →
  ∃ qs, between s (step s (Step t)) [EvBcast x qs].
Proof. intros s t f x k Hr Hn Hc. destruct (c13_broadcast s t f x k Hr Hn) as (_ & H). destruct (H Hc) as (qs & Hb & _). by exists qs. Qed.
