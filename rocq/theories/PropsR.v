(** Property theorems, part R. *)
From stdpp Require Import base numbers list list_numbers.
From Coq Require Import Lia.
From Verif Require Import Prio Heap State Model Lib Spec Witness System SystemSpec StopSpec CallSpec WitnessI WitnessJ WitnessK ClaimsR.

(** ** C56.  Actors that panic or are dropped.  Such an actor is gone: its mailbox is dropped, too. *)
Theorem C56_gone : ∀ c l i, cancelled c l i → leads (λ z, finished z i) (sys_run (sys_init c) l).
Proof. exact c56_stops. Qed.
Print Assumptions C56_gone.
Example C56_gone_example : cancelled (Some 1) l_panic 0 ∧ ∃ t, tk y_panic !! 0 = Some t ∧ t_st t = TDrop.
Proof.
  split; [|eexists; split; [vm|done]]. exists l_hand, []. split; [reflexivity|]. eexists. split; [vm|]. right; right. eexists _, _. split; [done|]. split; [vm|]. by right; eexists.
Qed.
(** If another actor is left, every other message is handled, ... *)
Theorem C56_messages : ∀ c l, hands_off l →
  leads (λ z, some_actor z → ∀ m, happened (EvAccept m) (ch z) → (∃ v, happened (EvDone m v) (ch z)) ∨ lost m (ch z)) (sys_run (sys_init c) l).
Proof. exact c56_messages. Qed.
Print Assumptions C56_messages.
(** ... for at most one message is lost with each, ... *)
Theorem C56_losses : ∀ c l, hands_off l → losses (ch (sys_run (sys_init c) l)) ≤ cancels l.
Proof. exact c56_losses. Qed.
Print Assumptions C56_losses.
(** ... and no caller waits for ever: it is woken and gets what the handler returned, or [Error::Interrupted]. *)
Theorem C56_callers : ∀ c l, hands_off l → c ≠ Some 0 → leads (λ z, some_actor z → answered_or_lost (ch z)) (sys_run (sys_init c) l).
Proof. exact c56_callers. Qed.
Print Assumptions C56_callers.
Example C56_callers_example : hands_off l_panic ∧ some_actor y_calm ∧ losses (ch y_calm) = 1 ∧ cancels l_panic = 1 ∧
  happened (EvDrop 0 DUserRun) (ch y_calm) ∧ happened (EvDone 1 7) (ch y_calm) ∧
  (∃ x, sfs (ch y_calm) !! 0 = Some x ∧ send_pending x ∧ sf_mode x = MReturn 0 ∧ existsb (Nat.eqb (sf_wk x)) (wakes (ch y_calm)) = true) ∧
  (∃ x, sfs (ch y_calm) !! 1 = Some x ∧ send_pending x ∧ sf_mode x = MReturn 1 ∧ existsb (Nat.eqb (sf_wk x)) (wakes (ch y_calm)) = true).
Proof.
  assert (∀ x, x ∈ l_panic → match x with SCall (ANext _) => False | _ => True end) as HL.
  { intros x H. apply elem_of_list_In in H. vm_compute in H. repeat (destruct H as [<-|H]; [done|]). done. }
  split_and!; [by intros h H; apply HL in H| |vm|vm| | | |].
  - exists 1. eexists. split; [vm|done].
  - apply elem_of_list_In. vm_compute. tauto.
  - apply elem_of_list_In. vm_compute. tauto.
  - eexists. split; [vm|]. split; [split; [done|]; by right; split; [|eexists]|]. split; [done|vm].
  - eexists. split; [vm|]. split; [split; [done|]; by left; eexists|]. split; [done|vm].
Qed.
