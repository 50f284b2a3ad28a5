(** Specification vocabulary for the control loops: which event may happen after which
    events [p] (in order). *)
From stdpp Require Import base numbers list.
From Verif Require Import Actor.

(** The messages taken from the mailbox / whose dispatch is finished, in order. *)
Fixpoint taken (p : list aev) : list nat :=
  match p with [] => [] | PollNext _ (Some m) :: p => m :: taken p | _ :: p => taken p end.
Fixpoint dispatched (p : list aev) : list nat :=
  match p with [] => [] | PollDispatch m (Some _) :: p => m :: dispatched p | _ :: p => dispatched p end.
(** Started successfully. *)
Definition started (p : list aev) : Prop := PollStarted (Some None) ∈ p.
(** A dispatch asked to stop. *)
Definition stop_asked (p : list aev) : Prop := ∃ m, PollDispatch m (Some false) ∈ p.
(** The future given to select / join has returned. *)
Definition fut_done (p : list aev) : Prop := ∃ r, PollFut (Some r) ∈ p.
(** Receive future [n] exists and has neither yielded a message nor been dropped. *)
Definition open_next (n : nat) (p : list aev) : Prop :=
  NewNext n ∈ p ∧ (∀ m, PollNext n (Some m) ∉ p) ∧ DropNext n ∉ p.

(** [run]: [started] first; then one message after the other, each dispatched to completion
    before the next is asked for; nothing but [stopped], once, after a dispatch asked to stop. *)
Definition legal_run (p : list aev) (x : aev) : Prop :=
  match x with
  | PollStarted _ => ∀ y, y ∈ p → y = PollStarted None
  | NewNext n => started p ∧ ¬ stop_asked p ∧ taken p = dispatched p ∧ NewNext n ∉ p
  | PollNext n _ => started p ∧ ¬ stop_asked p ∧ taken p = dispatched p ∧ open_next n p
  | PollDispatch m _ => started p ∧ ¬ stop_asked p ∧ taken p = dispatched p ++ [m]
  | PollStopped _ => stop_asked p ∧ ∀ v, PollStopped (Some v) ∉ p
  | DropNext _ | PollFut _ => False
  end.
(** [select] and [join]: the future is polled until it returns; messages are taken one after
    the other, and dispatched before anything else is done; after the future returned [next]
    is polled once more (no message is waited for), and dropped if it has nothing; after a
    dispatch asked to stop no message is taken. *)
Definition legal_join (p : list aev) (x : aev) : Prop :=
  match x with
  | PollFut _ => ¬ fut_done p ∧ taken p = dispatched p
  | NewNext n => ¬ fut_done p ∧ ¬ stop_asked p ∧ taken p = dispatched p ∧ NewNext n ∉ p
  | PollNext n _ => ¬ stop_asked p ∧ taken p = dispatched p ∧ open_next n p ∧
      ∃ p' r, p = p' ++ [PollFut r] ∧ ¬ fut_done p'
  | PollDispatch m _ => ¬ stop_asked p ∧ taken p = dispatched p ++ [m]
  | DropNext n => open_next n p ∧ ∃ p' r, p = p' ++ [PollFut (Some r); PollNext n None]
  | PollStarted _ | PollStopped _ => False
  end.
(** Every event of the history [h] was legal when it happened. *)
Definition all_legal (legal : list aev → aev → Prop) (h : list aev) : Prop :=
  ∀ h1 x h2, h = h1 ++ x :: h2 → legal h1 x.
(** The number of polls of the future. *)
Definition fut_polls (p : list aev) : nat :=
  length (List.filter (λ x, match x with PollFut _ => true | _ => false end) p).
