(** Vocabulary for join handles of actors on executors. *)
From stdpp Require Import base numbers list.
From Verif Require Import Prio Heap State Model Spec System.

(** Every mailbox that was not dropped is run by an actor that has not stopped. *)
Definition no_other_mailbox (y : sys) : Prop :=
  ∀ h x, hols (ch y) !! h = Some x → h_st x = HMailbox → ∃ i t, tk y !! i = Some t ∧ t_mb t = h ∧ t_st t ≠ TDone.
(** Every join handle returns when it is polled, and those polled before were woken. *)
Definition joins_over (s : state) : Prop :=
  ∀ j x, jhs s !! j = Some x → (jh_live x = true → newly s (step s (APollJoin j)) (EvJoin j true)) ∧ (join_pending s j → woken s (jh_wk x)).
