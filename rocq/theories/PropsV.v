(** Property theorems, part V. *)
From stdpp Require Import base numbers list list_numbers.
From Verif Require Import Prio Heap State Model Spec Witness System SystemSpec StopSpec WitnessI JoinSpec WitnessO ClaimsV.

(** ** C60.  Join handles of actors on executors.  If only the actors receive messages: when everything has come to rest, all
    actors have stopped and no mailbox is left, every join handle returns when it is polled, and those polled before were
    woken; ... *)
Theorem C60_all_stopped : ∀ c l, hands_off l → leads (λ z, ¬ some_actor z → no_other_mailbox z → joins_over (ch z)) (sys_run (sys_init c) l).
Proof. exact c60_end. Qed.
Print Assumptions C60_all_stopped.
Example C60_all_stopped_example : hands_off o_drop ∧ sys_reachable o_rest ∧ (¬ some_actor o_rest ∧ no_other_mailbox o_rest) ∧ join_pending (ch o_rest) 0 ∧
  length (tk o_rest) = 2 ∧ (∃ x, jhs (ch o_rest) !! 0 = Some x ∧ jh_live x = true ∧ existsb (Nat.eqb (jh_wk x)) (wakes (ch o_rest)) = true).
Proof.
  split; [exact hands_off_drop|]. split; [exact o_rest_reachable|]. split; [apply all_gone_spec; vm_compute; reflexivity|].
  split; [apply joined; vm_compute; reflexivity|]. split; [vm_compute; reflexivity|]. eexists. split_and!; vm_compute; reflexivity.
Qed.
(** ... so they do after the last strong address was dropped, ... *)
Theorem C60_last_address : ∀ c l, let y := sys_run (sys_init c) l in hands_off l → strong_addresses (ch y) + strong_futures (ch y) = 0 →
  leads (λ z, no_other_mailbox z → joins_over (ch z)) y.
Proof. exact c60_last. Qed.
Print Assumptions C60_last_address.
Example C60_last_address_example : hands_off o_drop ∧ strong_addresses (ch o_last) + strong_futures (ch o_last) = 0 ∧ join_pending (ch o_last) 0 ∧
  (∃ x, jhs (ch o_last) !! 0 = Some x ∧ existsb (Nat.eqb (jh_wk x)) (wakes (ch o_last)) = false) ∧ length (tk o_last) = 2 ∧ no_other_mailbox o_last.
Proof.
  split; [exact hands_off_drop|]. split; [vm_compute; reflexivity|]. split; [apply joined; vm_compute; reflexivity|].
  split; [eexists; split; vm_compute; reflexivity|]. split; [vm_compute; reflexivity|]. exact o_last_run.
Qed.
(** ... and after a handler called [stop_all], if no further mailbox was made. *)
Theorem C60_stop_all : ∀ c l r, let y := sys_run (sys_init c) l in
  hands_off l → in_handler (ch y) r → 0 < strong_addresses (ch y) + strong_futures (ch y) →
  leads (λ z, no_other_mailbox z → joins_over (ch z)) (sys_run y [SCall (AStopAll r)]).
Proof. exact c60_all. Qed.
Print Assumptions C60_stop_all.
Example C60_stop_all_example : hands_off o_hand ∧ in_handler (ch o_run) 2 ∧ strong_addresses (ch o_run) = 1 ∧ join_pending (ch o_run) 0 ∧
  (¬ some_actor o_over ∧ no_other_mailbox o_over) ∧ (∃ x, jhs (ch o_over) !! 0 = Some x ∧ existsb (Nat.eqb (jh_wk x)) (wakes (ch o_over)) = true).
Proof.
  split; [exact hands_off_hand|]. split; [eexists _, _; split; vm_compute; reflexivity|]. split; [vm_compute; reflexivity|].
  split; [apply joined; vm_compute; reflexivity|]. split; [apply all_gone_spec; vm_compute; reflexivity|]. eexists. split; vm_compute; reflexivity.
Qed.
(** They do not return before all actors have stopped, unless the last strong address was dropped. *)
Theorem C60_not_before : ∀ y j, sys_reachable y → happened (EvJoin j true) (ch y) → ¬ some_actor y ∨ strong_addresses (ch y) + strong_futures (ch y) = 0.
Proof. exact c60_only. Qed.
Print Assumptions C60_not_before.
Example C60_not_before_example : sys_reachable o_done ∧ existsb (λ e, match e with EvJoin 0 true => true | _ => false end) (log (ch o_done)) = true ∧
  strong_addresses (ch o_done) = 1 ∧ length (tk o_done) = 2.
Proof. split; [exact o_done_reachable|]. split_and!; vm_compute; reflexivity. Qed.
(** A mailbox that no actor runs keeps them waiting, though all actors have stopped. *)
Theorem C60_idle_mailbox_blocks : ∃ c l, hands_off l ∧ uncancelled l ∧ let z := sys_run (sys_init c) l in (∀ o, ¬ inner z o) ∧ ¬ some_actor z ∧
  0 < length (tk z) ∧ strong_addresses (ch z) + strong_futures (ch z) = 0 ∧
  ∃ j x, jhs (ch z) !! j = Some x ∧ jh_live x = true ∧ join_pending (ch z) j ∧ ¬ woken (ch z) (jh_wk x) ∧ newly (ch z) (step (ch z) (APollJoin j)) (EvJoin j false).
Proof. exact c60_idle. Qed.
Print Assumptions C60_idle_mailbox_blocks.
