(** Lemmas for the property theorems, part Q. *)
From stdpp Require Import base numbers list list_numbers.
From Coq Require Import Lia.
From Verif Require Import Prio Heap State Model Spec System SystemSpec StopSpec CallSpec SystemCause SystemCalls.

Lemma c55_works : ∀ c l i, let y := sys_run (sys_init c) l in
  no_stops l → working y i → 0 < strong_addresses (ch y) → leads (λ z, working z i) y.
Proof. exact keeps_working. Qed.
Lemma c55_handled : ∀ c l i, let y := sys_run (sys_init c) l in
  hands_off l → uncancelled l → no_stops l → working y i → 0 < strong_addresses (ch y) →
  leads (λ z, working z i ∧ ∀ m, happened (EvAccept m) (ch z) → ∃ v, happened (EvDone m v) (ch z)) y.
Proof. exact service. Qed.
Lemma c55_calls : ∀ c l, hands_off l → uncancelled l → c ≠ Some 0 → leads (λ z, some_actor z → answered (ch z)) (sys_run (sys_init c) l).
Proof. exact calls_answered. Qed.
Lemma c55_service : ∀ c l i, let y := sys_run (sys_init c) l in
  hands_off l → uncancelled l → no_stops l → c ≠ Some 0 → working y i → 0 < strong_addresses (ch y) →
  leads (λ z, working z i ∧ answered (ch z)) y.
Proof. exact service_answers. Qed.
