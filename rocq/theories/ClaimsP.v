(** Lemmas for the property theorems, part P. *)
From stdpp Require Import base numbers list list_numbers.
From Coq Require Import Lia.
From Verif Require Import Prio Heap State Model Spec System SystemSpec StopSpec SystemStop SystemNext SystemCause.

Lemma c54_message : ∀ y i r l, sys_reachable y → awaits y i r → got_stop (ch y) r → leads (λ z, finished z i) (sys_run y l).
Proof. exact stop_message. Qed.
Lemma c54_self : ∀ y i r l, sys_reachable y → awaits y i r → in_handler (ch y) r →
  leads (λ z, finished z i) (sys_run y (SCall (AStopSelf r) :: l)).
Proof. exact stop_self. Qed.
Lemma c54_all : ∀ c l r l', let y := sys_run (sys_init c) l in
  hands_off (l ++ l') → in_handler (ch y) r → 0 < strong_addresses (ch y) + strong_futures (ch y) →
  leads (λ z, ∀ i, i < length (tk y) → finished z i) (sys_run y (SCall (AStopAll r) :: l')).
Proof. exact stop_everyone. Qed.
Lemma c54_reason : ∀ c l i, stopping_task (sys_run (sys_init c) l) i →
  start_failed c l i ∨ cancelled c l i ∨ self_stopped c l i ∨ stop_received c l i.
Proof. exact stop_reason. Qed.
Lemma c54_next : ∀ c l t l' i r, let y := sys_run (sys_init c) l in
  hands_off (l ++ l') → next_action (ch y) t UStopAll → i < length (tk y) → fresh (ch y) r →
  let z := sys_run y (SCall (Step t) :: l') in awaits z i r → ¬ in_handler (ch z) r.
Proof. exact stop_next. Qed.
Lemma c54_start : ∀ c l i, start_failed c l i →
  (∀ l1 l2 r, l = l1 ++ l2 → ¬ awaits (sys_run (sys_init c) l1) i r ∧ ¬ in_stopped (sys_run (sys_init c) l1) i) ∧ leads (λ z, finished z i) (sys_run (sys_init c) l).
Proof. exact start_error_stops. Qed.
Lemma c54_mailbox : ∀ y i t, sys_reachable y → tk y !! i = Some t →
  ∃ x, hols (ch y) !! t_mb t = Some x ∧ h_st x = match t_st t with TDone => HGone | _ => HMailbox end.
Proof. exact mailbox_dropped. Qed.
Lemma c54_cause : ∀ c l i, let y := sys_run (sys_init c) l in stopping_task y i →
  start_failed c l i ∨ cancelled c l i ∨ self_stopped c l i ∨ all_stopped c l ∨ no_strong (ch y).
Proof. exact stop_cause. Qed.
