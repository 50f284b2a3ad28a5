(** Property theorems, part U. *)
From stdpp Require Import base numbers list list_numbers.
From Verif Require Import Prio Heap State Model Spec Witness System SystemSpec StopSpec WitnessI BcastSpec WitnessN ClaimsU.

(** ** C59.  Broadcasts to actors on executors.  Of every mailbox, a broadcast is handled at most once, and only if the mailbox
    existed when it was sent. *)
Theorem C59_at_most_once : ∀ s x qs b, reachable s → happened (EvBcast x qs) s → ran (bm_id x) b s ≤ 1 ∧ (b ∉ qs → ran (bm_id x) b s = 0).
Proof. exact c59_once. Qed.
Print Assumptions C59_at_most_once.
Example C59_at_most_once_example : reachable (ch n_rest) ∧ happened (EvBcast (BM 0 0) [0; 1]) (ch n_rest) ∧
  ran 0 0 (ch n_rest) = 1 ∧ ran 0 1 (ch n_rest) = 1.
Proof. split; [exact n_rest_reachable|]. split; [apply elem_of_list_In; vm_compute; tauto|]. split; vm. Qed.
(** If only the actors receive messages: when everything has come to rest, every actor that has not stopped has handled every
    broadcast to its mailbox exactly once. *)
Theorem C59_handled_at_rest : ∀ c l, hands_off l →
  leads (λ z, ∀ i b x qs, runs_on z i b → happened (EvBcast x qs) (ch z) → b ∈ qs → ordinary x = true → ran (bm_id x) b (ch z) = 1) (sys_run (sys_init c) l).
Proof. exact c59_rest. Qed.
Print Assumptions C59_handled_at_rest.
Example C59_handled_at_rest_example : hands_off (n_pre ++ [SCall (Step 3)]) ∧ runs_on n_sent 0 0 ∧ runs_on n_sent 1 1 ∧
  happened (EvBcast (BM 0 0) [0; 1]) (ch n_sent) ∧ ran 0 0 (ch n_sent) = 0 ∧ ran 0 1 (ch n_sent) = 0 ∧
  runs_on n_rest 0 0 ∧ runs_on n_rest 1 1 ∧ ran 0 0 (ch n_rest) = 1 ∧ ran 0 1 (ch n_rest) = 1.
Proof.
  split; [exact hands_off_n|]. split_and!; [..|apply elem_of_list_In; vm_compute; tauto| | | | | |]; try vm.
  all: eexists _, _; split_and!; [by vm_compute|done|by vm_compute|done].
Qed.
(** So a broadcast is handled by every actor that had not stopped when it was sent, unless the actor stops first, whatever
    happens later. *)
Theorem C59_every_actor : ∀ c l o l' i b x qs, let y := sys_run (sys_init c) l in
  hands_off (l ++ o :: l') → runs_on y i b → newly (ch y) (ch (sys_step y o)) (EvBcast x qs) → ordinary x = true →
  leads (λ z, finished z i ∨ runs_on z i b ∧ ran (bm_id x) b (ch z) = 1) (sys_run y (o :: l')).
Proof. exact c59_every. Qed.
Print Assumptions C59_every_actor.
Example C59_every_actor_example : runs_on n_wait 0 0 ∧ runs_on n_wait 1 1 ∧
  newly (ch n_wait) (ch (sys_step n_wait (SCall (Step 3)))) (EvBcast (BM 0 0) [0; 1]).
Proof. split_and!; [..|apply (newly_spec 0 1); vm]. all: eexists _, _; split_and!; [by vm_compute|done|by vm_compute|done]. Qed.
(** Those who broadcast are not blocked for ever, if there is room at all and every mailbox ever made is run by an actor
    that has not stopped. *)
Theorem C59_broadcasters_proceed : ∀ c l, c ≠ Some 0 → leads (λ z, all_run z → broadcasts_sent (ch z)) (sys_run (sys_init c) l).
Proof. exact c59_sent. Qed.
Print Assumptions C59_broadcasters_proceed.
Example C59_broadcasters_proceed_example : (∃ x, sfs (ch n_blocked) !! 1 = Some x ∧ send_pending x ∧ sf_mode x = MBroadcast ∧ ¬ woken (ch n_blocked) (sf_wk x)) ∧
  blocked_bcast (ch n_blocked) (BM 1 0) ∧ length (bqueues (ch n_unblocked)) = 2 ∧ runs_on n_unblocked 0 0 ∧ runs_on n_unblocked 1 1 ∧
  (∃ x, sfs (ch n_unblocked) !! 1 = Some x ∧ send_pending x ∧ woken (ch n_unblocked) (sf_wk x)).
Proof.
  split_and!.
  - eexists. split; [by vm_compute|]. split; [split; [done|left; by eexists]|]. split; [done|]. intros H. apply elem_of_list_In in H. vm_compute in H. tauto.
  - exists 0, (Some 1). vm.
  - vm.
  - eexists _, _; split_and!; [by vm_compute|done|by vm_compute|done].
  - eexists _, _; split_and!; [by vm_compute|done|by vm_compute|done].
  - eexists. split; [by vm_compute|]. split; [split; [done|left; by eexists]|]. apply elem_of_list_In. vm_compute. tauto.
Qed.
(** Without the second condition this is false: an actor that fails to start with a broadcast in its mailbox leaves later
    broadcasts blocked, although the other actor has handled everything and waits. *)
Theorem C59_gone_actor_blocks : ∃ c l f x, c ≠ Some 0 ∧ hands_off l ∧ uncancelled l ∧ no_stops l ∧
  let z := sys_run (sys_init c) l in (∀ o, ¬ inner z o) ∧ some_actor z ∧ 0 < strong_addresses (ch z) ∧
  sfs (ch z) !! f = Some x ∧ send_pending x ∧ sf_mode x = MBroadcast ∧ ¬ woken (ch z) (sf_wk x) ∧ resolves_to (ch z) f OPending.
Proof. exact c59_stale. Qed.
Print Assumptions C59_gone_actor_blocks.
