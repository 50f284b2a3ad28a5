(** Property theorems, part E. *)
From stdpp Require Import base numbers list list_numbers.
From Coq Require Import Lia.
From Verif Require Import Prio Heap State Model Lib Spec Witness WitnessB WitnessC WitnessE ClaimsE.

(** ** C31: every poll uses a new waker ([C31_waker_fresh]); if the last poll of a receive future returned Pending
    and it was assigned anything since, or polling it now would complete it, the waker of that poll was woken. *)
Theorem C31_receiver_woken : ∀ s r h o, reachable s → hols s !! r = Some h → h_st h = HRecvWait o → ¬ idle s r → woken s (h_wk h).
Proof. exact c31_woken. Qed.
Print Assumptions C31_receiver_woken.
Theorem C31_ready_receiver_woken : ∀ s r h o a, reachable s → hols s !! r = Some h → h_st h = HRecvWait o → receive_resolves_to s r a → woken s (h_wk h).
Proof. exact c31_ready. Qed.
Print Assumptions C31_ready_receiver_woken.
Theorem C31_waker_fresh : ∀ s r h, reachable s → hols s !! r = Some h → (h_st h = HRecvNew ∨ ∃ o, h_st h = HRecvWait o) →
  ∃ h', hols (step s (APollRecv r)) !! r = Some h' ∧ h_wk h' = nwk s ∧ ¬ woken (step s (APollRecv r)) (h_wk h').
Proof. exact c31_fresh. Qed.
Print Assumptions C31_waker_fresh.
Example C31_example : ∃ h, reachable w_wr ∧ hols w_wr !! 1 = Some h ∧ h_st h = HRecvWait 0 ∧ ¬ idle w_wr 1 ∧
  receive_resolves_to w_wr 1 (ToOne (UM 0 0)) ∧ woken w_wr (h_wk h).
Proof.
  eexists. split; [exact reach_w_wr|]. split; [vm|]. split; [done|]. split; [apply (not_idle_spec _ _ 0); [eexists; split; [vm|done]|vm]|].
  split; [apply (recv_resolves_spec 1 _ _ _ 0 1); vm|]. apply (woken_spec 0). vm.
Qed.

(** ** C32: the same for send futures (blocked, or waiting for the reply) and for detached receivers. *)
Theorem C32_sender_woken : ∀ s f x, reachable s → sfs s !! f = Some x → send_pending x → ¬ send_waits s x → woken s (sf_wk x).
Proof. exact c32_woken. Qed.
Print Assumptions C32_sender_woken.
Theorem C32_ready_sender_woken : ∀ s f x o, reachable s → sfs s !! f = Some x → send_pending x → resolves_to s f o → o ≠ OPending → woken s (sf_wk x).
Proof. exact c32_ready. Qed.
Print Assumptions C32_ready_sender_woken.
Theorem C32_waker_fresh : ∀ s f x, reachable s → sfs s !! f = Some x → sf_live x = true → (∃ p k, sf_st x = SNew p k) ∨ send_pending x →
  ∃ x', sfs (step s (APollSend f)) !! f = Some x' ∧ sf_wk x' = nwk s ∧ ¬ woken (step s (APollSend f)) (sf_wk x').
Proof. exact c32_fresh. Qed.
Print Assumptions C32_waker_fresh.
Theorem C32_receiver_woken : ∀ s i x, reachable s → receiver_pending s i x → ¬ receiver_waits s x → woken s (rc_wk x).
Proof. exact c32_receiver_woken. Qed.
Print Assumptions C32_receiver_woken.
Theorem C32_ready_receiver_woken : ∀ s i x o, reachable s → receiver_pending s i x → receiver_resolves_to s i o → o ≠ OPending → woken s (rc_wk x).
Proof. exact c32_receiver_ready. Qed.
Print Assumptions C32_ready_receiver_woken.
Example C32_example : (∃ x, reachable w_ws ∧ sfs w_ws !! 2 = Some x ∧ send_pending x ∧ ¬ send_waits w_ws x) ∧
  (∃ x, sfs w_ws !! 1 = Some x ∧ send_pending x ∧ send_waits w_ws x) ∧
  (∃ x, reachable w_ws2 ∧ sfs w_ws2 !! 0 = Some x ∧ send_pending x ∧ resolves_to w_ws2 0 (OValue 7)) ∧
  (∃ x, reachable w_rc ∧ receiver_pending w_rc 0 x ∧ ¬ receiver_waits w_rc x ∧ receiver_resolves_to w_rc 0 (OValue 7)).
Proof.
  split; [|split; [|split]].
  - eexists. split; [exact reach_w_ws|]. split; [vm|]. split; [split; [done|left; by eexists]|]. intros (a & w & m & H). revert H. by vm_compute.
  - eexists. split; [vm|]. split; [split; [done|left; by eexists]|]. eexists _, _, _. vm.
  - eexists. split; [exact reach_w_ws2|]. split; [vm|]. split; [split; [done|right; split; [done|by eexists]]|]. apply (resolves_spec 1 _ _ _ 0 1); vm.
  - eexists. split; [exact reach_w_rc|]. split; [split; [vm|split; [done|split; [done|apply (happened_spec 4); vm]]]|].
    split; [intros (rx & w & H); revert H; by vm_compute|]. apply (rcv_resolves_spec 1 _ _ _ 0 1); vm.
Qed.

(** ** C33: a join handle resolves only when the channel is disconnected; when the last mailbox is gone and its
    destructor has announced it, every join handle resolves at its next poll and its last waker was woken. *)
Theorem C33_only_if_disconnected : ∀ s o j, reachable s → newly s (step s o) (EvJoin j true) → ¬ is_conn s.
Proof. exact c33_only. Qed.
Print Assumptions C33_only_if_disconnected.
Theorem C33_resolved_after_end : ∀ s j x, reachable s → mailbox_objects s = 0 → mailbox_calls s = 0 → shutdowns s = 0 → jhs s !! j = Some x →
  (jh_live x = true → newly s (step s (APollJoin j)) (EvJoin j true)) ∧ (join_pending s j → woken s (jh_wk x)).
Proof. exact c33_end. Qed.
Print Assumptions C33_resolved_after_end.
Theorem C33_waker_fresh : ∀ s j x, reachable s → jhs s !! j = Some x → jh_live x = true →
  ∃ x', jhs (step s (APollJoin j)) !! j = Some x' ∧ jh_wk x' = nwk s ∧ ¬ woken (api (APollJoin j) s) (jh_wk x').
Proof. exact c33_fresh. Qed.
Print Assumptions C33_waker_fresh.
Example C33_example : reachable w_jn ∧ mailbox_objects w_jn = 0 ∧ mailbox_calls w_jn = 0 ∧ shutdowns w_jn = 0 ∧
  (∃ x, jhs w_jn !! 0 = Some x ∧ jh_live x = true ∧ join_pending w_jn 0) ∧ (∃ x, jhs w_jn !! 1 = Some x ∧ jh_live x = true).
Proof.
  split; [exact reach_w_jn|]. do 3 (split; [vm|]). split; [|eexists; split; [vm|done]].
  eexists. split; [vm|]. split; [done|]. split; [apply (happened_spec 0); vm|].
  intros H. by apply (happens_spec (λ e, match e with EvJoin _ true => false | _ => true end)) in H; [|vm].
Qed.

(** ** C34: full statement: whenever the channel is disconnected and no call is in progress every join handle is
    resolved (false when only the strong addresses are gone: [C34_join_refuted]).  Proved: a join handle asked for
    when the channel is already disconnected resolves, and so does every join handle when the mailboxes are gone. *)
Theorem C34_late_join_partial : ∀ s a x, reachable s → ¬ is_conn s → addrs s !! a = Some x → ad_live x = true →
  newly s (run s (AJoin a :: replicate 2 (Step (length (thr s))) ++ [APollJoin (length (jhs s))])) (EvJoin (length (jhs s)) true).
Proof. exact c34_late. Qed.
Print Assumptions C34_late_join_partial.
Theorem C34_no_mailbox_partial : ∀ s j x, reachable s → quiet s → mailbox_objects s = 0 → jhs s !! j = Some x → jh_live x = true →
  newly s (step s (APollJoin j)) (EvJoin j true).
Proof. exact c34_end. Qed.
Print Assumptions C34_no_mailbox_partial.
Example C34_example : (∃ x, reachable w_join ∧ ¬ is_conn w_join ∧ addrs w_join !! 1 = Some x ∧ ad_live x = true) ∧
  (∃ x, reachable w_jn ∧ quiet w_jn ∧ mailbox_objects w_jn = 0 ∧ jhs w_jn !! 1 = Some x ∧ jh_live x = true).
Proof.
  split.
  - eexists. split; [exact reach_w_join|]. split; [intros [_ H]; revert H; apply Nat.le_ngt, Nat.leb_le; vm|]. split; [vm|done].
  - eexists. split; [exact reach_w_jn|]. split; [apply quietb_spec; vm|]. split; [vm|]. split; [vm|done].
Qed.
