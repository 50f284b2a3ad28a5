(** Property theorems, part O. *)
From stdpp Require Import base numbers list list_numbers.
From Coq Require Import Lia.
From Verif Require Import Prio Heap State Model Lib Spec Witness System SystemSpec WitnessI ClaimsO.

(** ** C53.  Actors on executors: if there is no further call from outside and the handlers return, then after finitely
    many steps, in whatever order tasks and threads are scheduled, every actor has stopped or waits with nothing to do. *)
Theorem C53_actors_settle : ∀ y, sys_reachable y → leads settled y.
Proof. exact c53_settle. Qed.
Print Assumptions C53_actors_settle.
Example C53_actors_settle_example : sys_reachable y_two ∧ inner y_two (STask 0 0) ∧ inner y_two (STask 1 0) ∧ length (uq (ch y_two)) = 1 ∧
  blocked 1 (ch y_two) = 1 ∧ blocked 2 (ch y_two) = 1.
Proof. split; [exact reach_y_two|]. split_and!; [right..|vm|vm|vm]; eexists _, _, _, _; (split; [done|]); split; [vm|done|vm|done]. Qed.

(** If in addition only the actors receive messages, none panics or is dropped, and some actor has not stopped, every
    accepted message was handled. *)
Theorem C53_no_message_left : ∀ c l, hands_off l → uncancelled l →
  leads (λ z, some_actor z → ∀ m, happened (EvAccept m) (ch z) → ∃ v, happened (EvDone m v) (ch z)) (sys_run (sys_init c) l).
Proof. exact c53_left. Qed.
Print Assumptions C53_no_message_left.
Example C53_no_message_left_example : hands_off y_ops ∧ uncancelled y_ops ∧ happened (EvAccept 0) (ch y_two) ∧ times (λ e, match e with EvDone _ _ => true | _ => false end) (ch y_two) = 0 ∧
  some_actor y_rest ∧ times (λ e, match e with EvDone _ _ => true | _ => false end) (ch y_rest) = 3.
Proof.
  split_and!; [| |apply (happened_spec 7); vm|vm| |vm].
  1,2: intros h H; apply elem_of_list_In in H; vm_compute in H; repeat (destruct H as [H|H]; [done|]); done.
  - exists 0. eexists. split; [vm|done].
Qed.

(** And if no strong address and no unsent future of one is left, all actors have stopped. *)
Theorem C53_last_address : ∀ y, sys_reachable y → strong_addresses (ch y) + strong_futures (ch y) = 0 → leads (λ z, ¬ some_actor z) y.
Proof. exact c53_stop. Qed.
Print Assumptions C53_last_address.
Example C53_last_address_example : sys_reachable y_last ∧ some_actor y_last ∧ strong_addresses (ch y_last) + strong_futures (ch y_last) = 0 ∧
  (∃ u, next_action (ch y_last) 2 u).
Proof. split; [by eexists _, _|]. split; [exists 0; eexists; split; [vm|done]|]. split; [vm|]. eexists _, []. vm. Qed.
