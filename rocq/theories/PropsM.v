(** Property theorems, part M. *)
From stdpp Require Import base numbers list list_numbers.
From Coq Require Import Lia.
From Verif Require Import Prio Heap State Model Lib Spec Witness ClaimsA FinishSpec ClaimsM.

(** ** C51.  If no further call begins, all calls in progress are complete after finitely many actions, in whatever order
    they perform them. *)
Theorem C51_all_settle : ∀ s, reachable s → settles s.
Proof. exact c51_settle. Qed.
Print Assumptions C51_all_settle.
Example C51_all_settle_example : reachable w_rush ∧
  (∃ u, next_action w_rush 2 u) ∧ (∃ u, next_action w_rush 3 u) ∧ (∃ u, next_action w_rush 4 u) ∧ (∃ u, next_action w_rush 5 u).
Proof. split; [apply run_drive_reachable|]. repeat split; eexists _, []; vm_compute; reflexivity. Qed.

(** A call other than a poll of a receive future is complete after finitely many actions of its own, whatever other calls
    do in between, and however many begin. *)
Theorem C51_call_finishes : ∀ s o, reachable s → (∀ r, o ≠ APollRecv r) →
  length (thr s) < length (thr (step s o)) → finishes (length (thr s)) (step s o).
Proof. exact c51_call. Qed.
Print Assumptions C51_call_finishes.
Example C51_call_finishes_example : reachable w_rush ∧
  length (thr w_rush) < length (thr (step w_rush (APollSend 1))) ∧ length (thr w_rush) < length (thr (step w_rush (ADropHol 0))).
Proof. split; [apply run_drive_reachable|]. split; vm_compute; lia. Qed.
