(** Lemmas for the property theorems, part V. *)
From stdpp Require Import base numbers list list_numbers.
From Verif Require Import Prio Heap State Model Lib Spec System SystemSpec StopSpec JoinSpec SystemJoin WitnessO.

Lemma c60_end : ∀ c l, hands_off l → leads (λ z, ¬ some_actor z → no_other_mailbox z → joins_over (ch z)) (sys_run (sys_init c) l).
Proof. exact joins_end. Qed.
Lemma c60_last : ∀ c l, let y := sys_run (sys_init c) l in hands_off l → strong_addresses (ch y) + strong_futures (ch y) = 0 →
  leads (λ z, no_other_mailbox z → joins_over (ch z)) y.
Proof. exact joins_last. Qed.
Lemma c60_all : ∀ c l r, let y := sys_run (sys_init c) l in
  hands_off l → in_handler (ch y) r → 0 < strong_addresses (ch y) + strong_futures (ch y) →
  leads (λ z, no_other_mailbox z → joins_over (ch z)) (sys_run y [SCall (AStopAll r)]).
Proof. exact joins_all. Qed.
Lemma c60_only : ∀ y j, sys_reachable y → happened (EvJoin j true) (ch y) → ¬ some_actor y ∨ strong_addresses (ch y) + strong_futures (ch y) = 0.
Proof. exact join_late_enough. Qed.
Lemma c60_idle : ∃ c l, hands_off l ∧ uncancelled l ∧ let z := sys_run (sys_init c) l in (∀ o, ¬ inner z o) ∧ ¬ some_actor z ∧
  0 < length (tk z) ∧ strong_addresses (ch z) + strong_futures (ch z) = 0 ∧
  ∃ j x, jhs (ch z) !! j = Some x ∧ jh_live x = true ∧ join_pending (ch z) j ∧ ¬ woken (ch z) (jh_wk x) ∧ newly (ch z) (step (ch z) (APollJoin j)) (EvJoin j false).
Proof. exact stays_open. Qed.
