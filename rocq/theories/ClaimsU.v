(** Lemmas for the property theorems, part U. *)
From stdpp Require Import base numbers list list_numbers.
From Verif Require Import Prio Heap State Model Lib Spec System SystemSpec StopSpec BcastSpec SystemBcast SystemBcall WitnessN.

Lemma c59_once : ∀ s x qs b, reachable s → happened (EvBcast x qs) s → ran (bm_id x) b s ≤ 1 ∧ (b ∉ qs → ran (bm_id x) b s = 0).
Proof. exact ran_once. Qed.
Lemma c59_rest : ∀ c l, hands_off l →
  leads (λ z, ∀ i b x qs, runs_on z i b → happened (EvBcast x qs) (ch z) → b ∈ qs → ordinary x = true → ran (bm_id x) b (ch z) = 1) (sys_run (sys_init c) l).
Proof. exact broadcasts_handled. Qed.
Lemma c59_every : ∀ c l o l' i b x qs, let y := sys_run (sys_init c) l in
  hands_off (l ++ o :: l') → runs_on y i b → newly (ch y) (ch (sys_step y o)) (EvBcast x qs) → ordinary x = true →
  leads (λ z, finished z i ∨ runs_on z i b ∧ ran (bm_id x) b (ch z) = 1) (sys_run y (o :: l')).
Proof. exact broadcast_every. Qed.
Lemma c59_sent : ∀ c l, c ≠ Some 0 → leads (λ z, all_run z → broadcasts_sent (ch z)) (sys_run (sys_init c) l).
Proof. exact broadcasters. Qed.
Lemma c59_stale : ∃ c l f x, c ≠ Some 0 ∧ hands_off l ∧ uncancelled l ∧ no_stops l ∧
  let z := sys_run (sys_init c) l in (∀ o, ¬ inner z o) ∧ some_actor z ∧ 0 < strong_addresses (ch z) ∧
  sfs (ch z) !! f = Some x ∧ send_pending x ∧ sf_mode x = MBroadcast ∧ ¬ woken (ch z) (sf_wk x) ∧ resolves_to (ch z) f OPending.
Proof. exact stale_blocks. Qed.
