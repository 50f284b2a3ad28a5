(** Specification vocabulary for the channel lock. *)
From stdpp Require Import base numbers list.
From Verif Require Import Reent.

(** Thread [t] waits for the lock that it holds itself. *)
Definition waits_for_itself (s : rstate) (t : nat) : Prop :=
  ∃ u rest, r_thr s !! t = Some (u :: rest) ∧ needs_lock u = true ∧ r_lock s = Some t.
Definition finished_all (s : rstate) : Prop := ∀ t p, r_thr s !! t = Some p → p = [].
(** The threads [ts] perform one action each, one after the other, and none of them has to wait. *)
Fixpoint all_act (s : rstate) (ts : list nat) : Prop :=
  match ts with
  | [] => True
  | t :: ts => can_step s t = true ∧ all_act (rstep s (RStep t)) ts
  end.
(** No thread waits for itself; as long as a call is in progress, some thread can act; and if no new calls begin, the
    calls in progress perform a bounded number of actions, in whatever order they are scheduled. *)
Definition no_deadlock (s : rstate) : Prop :=
  (∀ t, ¬ waits_for_itself s t) ∧ (¬ finished_all s → ∃ t, can_step s t = true) ∧ (∃ n, ∀ ts, all_act s ts → length ts ≤ n).
