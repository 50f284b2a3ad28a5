(** Property theorems, part N. *)
From stdpp Require Import base numbers list list_numbers.
From Coq Require Import Lia.
From Verif Require Import Prio Heap State Model Lib Spec Witness WitnessE ClaimsA ClaimsN.

(** ** C52.  No waker is woken twice. *)
Theorem C52_at_most_once : ∀ s w, reachable s → cnt (λ k, k =? w) (wakes s) ≤ 1.
Proof. exact c52_once. Qed.
Print Assumptions C52_at_most_once.
Example C52_at_most_once_example : reachable w_wr ∧ cnt (λ k, k =? 0) (wakes w_wr) = 1.
Proof. split; [exact reach_w_wr|vm]. Qed.
(** A pending receive future is woken only after it was notified, ... *)
Theorem C52_receiver_not_early : ∀ s r h o, reachable s → hols s !! r = Some h → h_st h = HRecvWait o → woken s (h_wk h) → ¬ idle s r.
Proof. exact c52_receiver. Qed.
Print Assumptions C52_receiver_not_early.
Example C52_receiver_example : ∃ h, reachable w_wr ∧ hols w_wr !! 1 = Some h ∧ h_st h = HRecvWait 0 ∧ woken w_wr (h_wk h).
Proof. eexists. split; [exact reach_w_wr|]. split; [vm|]. split; [done|]. apply (woken_spec 0). vm. Qed.
(** ... a pending send future after it was admitted, rejected or answered, ... *)
Theorem C52_sender_not_early : ∀ s f x, reachable s → sfs s !! f = Some x → send_pending x → woken s (sf_wk x) → ¬ send_waits s x.
Proof. exact c52_sender. Qed.
Print Assumptions C52_sender_not_early.
Example C52_sender_example : ∃ x, reachable w_ws2 ∧ sfs w_ws2 !! 0 = Some x ∧ send_pending x ∧ woken w_ws2 (sf_wk x).
Proof. eexists. split; [exact reach_w_ws2|]. split; [vm|]. split; [split; [done|right; split; [done|by eexists]]|]. apply (woken_spec 0). vm. Qed.
(** ... a pending detached receiver after the reply is there or will never be, ... *)
Theorem C52_reply_not_early : ∀ s i x, reachable s → receiver_pending s i x → woken s (rc_wk x) → ¬ receiver_waits s x.
Proof. exact c52_reply. Qed.
Print Assumptions C52_reply_not_early.
Example C52_reply_example : ∃ x, reachable w_rc ∧ receiver_pending w_rc 0 x ∧ woken w_rc (rc_wk x).
Proof.
  eexists. split; [exact reach_w_rc|]. split; [split; [vm|split; [done|split; [done|apply (happened_spec 4); vm]]]|]. apply (woken_spec 0). vm.
Qed.
(** ... and a pending join handle when polling it again resolves it. *)
Theorem C52_join_not_early : ∀ s j x, reachable s → jhs s !! j = Some x → jh_live x = true → join_pending s j → woken s (jh_wk x) →
  newly s (step s (APollJoin j)) (EvJoin j true).
Proof. exact c52_join. Qed.
Print Assumptions C52_join_not_early.
Example C52_join_example : ∃ x, reachable w_jn ∧ jhs w_jn !! 0 = Some x ∧ jh_live x = true ∧ join_pending w_jn 0 ∧ woken w_jn (jh_wk x).
Proof.
  eexists. split; [exact reach_w_jn|]. split; [vm|]. split; [done|].
  assert (join_pending w_jn 0) as H. { split; [apply (happened_spec 0); vm|].
  intros H. by apply (happens_spec (λ e, match e with EvJoin _ true => false | _ => true end)) in H; [|vm]. }
  split; [exact H|]. apply (woken_spec 0). vm.
Qed.
