(** Lemmas for the property theorems, part R. *)
From stdpp Require Import base numbers list list_numbers.
From Coq Require Import Lia.
From Verif Require Import Prio Heap State Model Spec System SystemSpec StopSpec CallSpec SystemLost SystemNext SystemCalls.

Lemma c56_stops : ∀ c l i, cancelled c l i → leads (λ z, finished z i) (sys_run (sys_init c) l).
Proof. exact cancelled_stops. Qed.
Lemma c56_messages : ∀ c l, hands_off l →
  leads (λ z, some_actor z → ∀ m, happened (EvAccept m) (ch z) → (∃ v, happened (EvDone m v) (ch z)) ∨ lost m (ch z)) (sys_run (sys_init c) l).
Proof. exact message_over. Qed.
Lemma c56_losses : ∀ c l, hands_off l → losses (ch (sys_run (sys_init c) l)) ≤ cancels l.
Proof. exact losses_bound. Qed.
Lemma c56_callers : ∀ c l, hands_off l → c ≠ Some 0 → leads (λ z, some_actor z → answered_or_lost (ch z)) (sys_run (sys_init c) l).
Proof. exact calls_over. Qed.
