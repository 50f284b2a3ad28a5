(** Vocabulary for actors on executors. *)
From stdpp Require Import base numbers list.
From Verif Require Import Prio Heap State Model Spec System.

Definition sys_reachable (y : sys) : Prop := ∃ c l, y = sys_run (sys_init c) l.
(** Something that happens without a new call from outside: a call in progress performs an action, or a task that need
    not wait continues (the hook or handler it awaits, if any, returns). *)
Definition inner (y : sys) (l : sop) : Prop :=
  (∃ t u, l = SCall (Step t) ∧ next_action (ch y) t u) ∨
  (∃ i v t x, l = STask i v ∧ tk y !! i = Some t ∧ task_step t v (ch y) = Some x).
(** However the executors and threads are scheduled: if there is no new call from outside, nothing more can happen after
    finitely many steps, and then [P] holds. *)
Inductive leads (P : sys → Prop) : sys → Prop :=
| leads_intro y : (∀ l, inner y l → leads P (sys_step y l)) → ((∀ l, ¬ inner y l) → P y) → leads P y.

(** Every actor has stopped, or it waits for messages, and then none is queued for it, no sender is blocked, and
    something that can send it more exists. *)
Definition settled (y : sys) : Prop :=
  quiet (ch y) ∧
  ∀ i t, tk y !! i = Some t → t_st t = TDone ∨
    ∃ r h, t_st t = TAwait r ∧ hols (ch y) !! r = Some h ∧ idle (ch y) r ∧
      uq (ch y) = [] ∧ backlog (ch y) (h_bq h) = [] ∧ (cap (ch y) ≠ Some 0 → ∀ m, blocked m (ch y) = 0) ∧
      0 < strong_addresses (ch y) + strong_futures (ch y).

(** Nobody but the tasks makes receive futures. *)
Definition hands_off (l : list sop) : Prop := ∀ h, SCall (ANext h) ∉ l.
(** No actor is dropped or panics. *)
Definition uncancelled (l : list sop) : Prop := ∀ i, SCancel i ∉ l.
(** How often an actor is dropped or panics. *)
Definition cancels (l : list sop) : nat := length (List.filter (λ x, match x with SCancel _ => true | _ => false end) l).
(** How many messages were dropped after they had been handed to a receive future, a message or a handler. *)
Definition losses (s : state) : nat := times (λ e, match e with EvDrop _ (DUserMsg | DUserRun | DWindow) => true | _ => false end) s.
(** An actor has not stopped. *)
Definition some_actor (y : sys) : Prop := ∃ i t, tk y !! i = Some t ∧ t_st t ≠ TDone.
