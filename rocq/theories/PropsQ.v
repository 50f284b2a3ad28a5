(** Property theorems, part Q. *)
From stdpp Require Import base numbers list list_numbers.
From Coq Require Import Lia.
From Verif Require Import Prio Heap State Model Lib Spec Witness System SystemSpec StopSpec CallSpec WitnessI WitnessJ ClaimsQ.

(** ** C55.  Calls to actors on executors are answered.  An actor that has started, while nobody stops actors and a strong
    address is left, keeps working, whether or not others panic or are dropped. *)
Theorem C55_keeps_working : ∀ c l i, let y := sys_run (sys_init c) l in
  no_stops l → working y i → 0 < strong_addresses (ch y) → leads (λ z, working z i) y.
Proof. exact c55_works. Qed.
Print Assumptions C55_keeps_working.
(** ... and if none panics or is dropped, every message that was accepted is handled, ... *)
Theorem C55_handled : ∀ c l i, let y := sys_run (sys_init c) l in
  hands_off l → uncancelled l → no_stops l → working y i → 0 < strong_addresses (ch y) →
  leads (λ z, working z i ∧ ∀ m, happened (EvAccept m) (ch z) → ∃ v, happened (EvDone m v) (ch z)) y.
Proof. exact c55_handled. Qed.
Print Assumptions C55_handled.
(** ... and every caller is woken and gets what the handler returned. *)
Theorem C55_answered : ∀ c l i, let y := sys_run (sys_init c) l in
  hands_off l → uncancelled l → no_stops l → c ≠ Some 0 → working y i → 0 < strong_addresses (ch y) →
  leads (λ z, working z i ∧ answered (ch z)) y.
Proof. exact c55_service. Qed.
Print Assumptions C55_answered.
Example C55_answered_example : hands_off l_hand ∧ uncancelled l_hand ∧ no_stops l_hand ∧ y_hand = sys_run (sys_init (Some 1)) l_hand ∧ working y_hand 0 ∧
  strong_addresses (ch y_hand) = 1 ∧
  (∃ x, sfs (ch y_hand) !! 1 = Some x ∧ send_pending x ∧ sf_mode x = MReturn 1 ∧ existsb (Nat.eqb (sf_wk x)) (wakes (ch y_hand)) = false) ∧
  existsb (λ e, match e with EvDone 0 _ => true | _ => false end) (log (ch y_hand)) = false.
Proof.
  assert (∀ x, x ∈ l_hand → match x with SCancel _ | SCall (ANext _) | SCall (AStopSelf _) | SCall (AStopAll _) => False | _ => True end) as HL.
  { intros x H. apply elem_of_list_In in H. vm_compute in H. repeat (destruct H as [<-|H]; [done|]). done. }
  split_and!; [by intros h H; apply HL in H|by intros h H; apply HL in H|by intros r; split; intros H; apply HL in H|reflexivity| |vm| |vm].
  - eexists. split; [vm|]. right. by eexists.
  - eexists. split; [vm|]. split; [split; [done|]; by left; eexists|]. split; [done|vm].
Qed.
(** More generally, if an actor is left when everything has come to rest, all callers were answered. *)
Theorem C55_answered_if_actor_left : ∀ c l, hands_off l → uncancelled l → c ≠ Some 0 → leads (λ z, some_actor z → answered (ch z)) (sys_run (sys_init c) l).
Proof. exact c55_calls. Qed.
Print Assumptions C55_answered_if_actor_left.
Example C55_answered_if_actor_left_example : some_actor y_self ∧ ∃ x, sfs (ch y_self) !! 1 = Some x ∧ send_pending x ∧ sf_mode x = MReturn 1 ∧
  existsb (Nat.eqb (sf_wk x)) (wakes (ch y_self)) = true.
Proof.
  split; [exists 1; eexists; split; [vm|done]|].
  eexists. split; [vm|]. split; [split; [done|]; by left; eexists|]. split; [done|vm].
Qed.
