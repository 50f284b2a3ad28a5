(** Specification vocabulary for scoped tasks. *)
From stdpp Require Import base numbers list.
From Verif Require Import State Model Spec Scoped.

Definition about (i : nat) (e : tev) : Prop :=
  match e with TNew k _ | TPollJoin k _ | TPollInner k _ | TReturn k _ => k = i end.
(** The last event about task [i] in the history [p] is [e]. *)
Definition last_about (i : nat) (p : list tev) (e : tev) : Prop :=
  about i e ∧ ∃ p1 p2, p = p1 ++ e :: p2 ∧ ∀ x, x ∈ p2 → ¬ about i x.
(** What may happen to a task after the history [p]: the join handle is polled first, by each poll; the inner
    future is polled exactly when the join handle was just found pending; the poll returns [None] right after the
    join handle was found resolved, and otherwise what the inner future just returned. *)
Definition legal_task (p : list tev) (x : tev) : Prop :=
  match x with
  | TNew i _ => ∀ y, y ∈ p → ¬ about i y
  | TPollJoin i _ => (∃ j, last_about i p (TNew i j)) ∨ last_about i p (TReturn i None)
  | TPollInner i _ => last_about i p (TPollJoin i false)
  | TReturn i None => ∃ p', p = p' ++ [TPollInner i None]
  | TReturn i (Some None) => ∃ p', p = p' ++ [TPollJoin i true]
  | TReturn i (Some (Some v)) => ∃ p', p = p' ++ [TPollInner i (Some v)]
  end.
(** What must happen next. *)
Definition prompt_task (x : tev) (n : list tev) : Prop :=
  match x with
  | TPollJoin i true => ∃ n', n = TReturn i (Some None) :: n'
  | TPollInner i r => ∃ n', n = TReturn i (match r with Some v => Some (Some v) | None => None end) :: n'
  | _ => True
  end.
Definition task_history_ok (h : list tev) : Prop :=
  ∀ h1 x h2, h = h1 ++ x :: h2 → legal_task h1 x ∧ prompt_task x h2.
(** The actor has stopped: no mailbox object and no call on behalf of one is left, and the destructor of the last
    one has announced the end. *)
Definition stopped (s : state) : Prop := mailbox_objects s = 0 ∧ mailbox_calls s = 0 ∧ shutdowns s = 0.
