(** Property theorems, part P. *)
From stdpp Require Import base numbers list list_numbers.
From Coq Require Import Lia.
From Verif Require Import Prio Heap State Model Lib Spec Witness System SystemSpec StopSpec WitnessI WitnessJ ClaimsP.

(** ** C54.  Actors on executors stop when told to: an actor that got a message to stop, or whose handler called
    [stop_self], stops, whatever else is called meanwhile, once no more is called from outside and the handlers return. *)
Theorem C54_stop_message : ∀ y i r l, sys_reachable y → awaits y i r → got_stop (ch y) r → leads (λ z, finished z i) (sys_run y l).
Proof. exact c54_message. Qed.
Print Assumptions C54_stop_message.
Example C54_stop_message_example : sys_reachable y_told ∧ awaits y_told 1 4 ∧ got_stop (ch y_told) 4 ∧ finished y_told 0.
Proof.
  split; [exact reach_y_told|]. split_and!.
  - eexists. split; [vm|done].
  - eexists _, _. split; [vm|]. split; [by left|]. right. by eexists.
  - eexists. split; [vm|done].
Qed.
Theorem C54_stop_self : ∀ y i r l, sys_reachable y → awaits y i r → in_handler (ch y) r →
  leads (λ z, finished z i) (sys_run y (SCall (AStopSelf r) :: l)).
Proof. exact c54_self. Qed.
Print Assumptions C54_stop_self.
Example C54_stop_self_example : sys_reachable y_hand ∧ awaits y_hand 0 2 ∧ in_handler (ch y_hand) 2.
Proof. split; [exact reach_y_hand|]. split; [eexists|eexists _, _]; (split; [vm|done]). Qed.
(** After [stop_all] every actor there is stops, provided a strong address is left and only the actors receive messages. *)
Theorem C54_stop_all : ∀ c l r l', let y := sys_run (sys_init c) l in
  hands_off (l ++ l') → in_handler (ch y) r → 0 < strong_addresses (ch y) + strong_futures (ch y) →
  leads (λ z, ∀ i, i < length (tk y) → finished z i) (sys_run y (SCall (AStopAll r) :: l')).
Proof. exact c54_all. Qed.
Print Assumptions C54_stop_all.
Example C54_stop_all_example : hands_off l_hand ∧ y_hand = sys_run (sys_init (Some 1)) l_hand ∧ in_handler (ch y_hand) 2 ∧
  strong_addresses (ch y_hand) = 1 ∧ length (tk y_hand) = 2.
Proof.
  split_and!; [|reflexivity| |vm|vm].
  - intros h H. apply elem_of_list_In in H. vm_compute in H. repeat (destruct H as [H|H]; [done|]). done.
  - eexists _, _. split; [vm|done].
Qed.
(** And they stop only if told to, or if they panic or are dropped. *)
Theorem C54_stop_reason : ∀ c l i, stopping_task (sys_run (sys_init c) l) i →
  start_failed c l i ∨ cancelled c l i ∨ self_stopped c l i ∨ stop_received c l i.
Proof. exact c54_reason. Qed.
Print Assumptions C54_stop_reason.
Example C54_stop_reason_example : stopping_task (sys_run (sys_init (Some 1)) l_self) 0 ∧ awaits (sys_run (sys_init (Some 1)) l_self) 1 5.
Proof. split; eexists; (split; [vm|]); [by right; right|done]. Qed.
(** ... with the causes of messages to stop: a handler called [stop_all], or no strong address is left. *)
Theorem C54_stop_cause : ∀ c l i, let y := sys_run (sys_init c) l in stopping_task y i →
  start_failed c l i ∨ cancelled c l i ∨ self_stopped c l i ∨ all_stopped c l ∨ no_strong (ch y).
Proof. exact c54_cause. Qed.
Print Assumptions C54_stop_cause.
Example C54_stop_cause_example : stopping_task (sys_run (sys_init (Some 1)) l_self) 0 ∧ strong_addresses (ch (sys_run (sys_init (Some 1)) l_self)) = 1 ∧
  existsb (λ x, match x with SCall (AStopAll _) => true | _ => false end) l_self = false.
Proof. split; [eexists; split; [vm|by right; right]|]. split; vm. Qed.
(** ... and [stop_all] is the next thing they receive: a receive future that has no message when it acts and is not being
    given one never makes an actor handle a message. *)
Theorem C54_stop_all_next : ∀ c l t l' i r, let y := sys_run (sys_init c) l in
  hands_off (l ++ l') → next_action (ch y) t UStopAll → i < length (tk y) → fresh (ch y) r →
  let z := sys_run y (SCall (Step t) :: l') in awaits z i r → ¬ in_handler (ch z) r.
Proof. exact c54_next. Qed.
Print Assumptions C54_stop_all_next.
Example C54_stop_all_next_example : hands_off (l_all ++ l_next) ∧ y_all = sys_run (sys_init (Some 1)) l_all ∧ next_action (ch y_all) 5 UStopAll ∧
  1 < length (tk y_all) ∧ fresh (ch y_all) 4 ∧ awaits (sys_run y_all (SCall (Step 5) :: l_next)) 1 4 ∧ length (uq (ch y_all)) = 1.
Proof.
  split_and!; [|reflexivity| | | | |vm].
  - intros h H. apply elem_of_list_In in H. vm_compute in H. repeat (destruct H as [H|H]; [done|]). done.
  - eexists. vm.
  - apply Nat.leb_le. vm.
  - left. vm.
  - eexists. split; [vm|done].
Qed.
(** An actor whose hook [started] fails receives nothing, its hook [stopped] never runs and its task
    completes. *)
Theorem C54_start_error : ∀ c l i, start_failed c l i →
  (∀ l1 l2 r, l = l1 ++ l2 → ¬ awaits (sys_run (sys_init c) l1) i r ∧ ¬ in_stopped (sys_run (sys_init c) l1) i) ∧ leads (λ z, finished z i) (sys_run (sys_init c) l).
Proof. exact c54_start. Qed.
Print Assumptions C54_start_error.
Example C54_start_error_example : start_failed (Some 1) (y_ops ++ [STask 1 3]) 1.
Proof. exists y_ops, 3, [], (TK 1 TStart). split_and!; [reflexivity|done|vm|done]. Qed.
(** The mailbox of an actor lives as long as its task. *)
Theorem C54_mailbox_dropped : ∀ y i t, sys_reachable y → tk y !! i = Some t →
  ∃ x, hols (ch y) !! t_mb t = Some x ∧ h_st x = match t_st t with TDone => HGone | _ => HMailbox end.
Proof. exact c54_mailbox. Qed.
Print Assumptions C54_mailbox_dropped.
Example C54_mailbox_dropped_example : sys_reachable y_told ∧ tk y_told !! 0 = Some (TK 0 TDone) ∧ tk y_told !! 1 = Some (TK 1 (TAwait 4)).
Proof. split; [exact reach_y_told|]. split; vm. Qed.
