(** Vocabulary for stopping actors on executors. *)
From stdpp Require Import base numbers list.
From Verif Require Import Prio Heap State Model Spec System.

(** The receive future number [r] got, and has not yet dispatched, a message to stop: the end-of-life signal or the
    broadcast of [stop_all]. *)
Definition got_stop (s : state) (r : nat) : Prop :=
  ∃ h a, hols s !! r = Some h ∧ (h_st h = HMsg a ∨ h_st h = HDispNew a) ∧ (a = Shut ∨ ∃ n, a = ToAll (BStop n)).
(** The handler of the message number [r] is running. *)
Definition in_handler (s : state) (r : nat) : Prop := ∃ h a, hols s !! r = Some h ∧ h_st h = HRun a.
(** The task number [i] awaits the message number [r] or its handler. *)
Definition awaits (y : sys) (i r : nat) : Prop := ∃ t, tk y !! i = Some t ∧ t_st t = TAwait r.
(** The hook [stopped] of the actor number [i] is running. *)
Definition in_stopped (y : sys) (i : nat) : Prop := ∃ t, tk y !! i = Some t ∧ t_st t = TStop.
Definition finished (y : sys) (i : nat) : Prop := ∃ t, tk y !! i = Some t ∧ t_st t = TDone.
(** The actor has stopped, or is about to. *)
Definition stopping_task (y : sys) (i : nat) : Prop := ∃ t, tk y !! i = Some t ∧ (t_st t = TStop ∨ t_st t = TDrop ∨ t_st t = TDone).

(** In the execution [l], the hook [started] of the actor number [i] returned an error. *)
Definition start_failed (c : option nat) (l : list sop) (i : nat) : Prop :=
  ∃ l1 v l2 t, l = l1 ++ STask i v :: l2 ∧ v ≠ 0 ∧ tk (sys_run (sys_init c) l1) !! i = Some t ∧ t_st t = TStart.
(** In the execution [l], a handler of the actor number [i] called [stop_self]. *)
Definition self_stopped (c : option nat) (l : list sop) (i : nat) : Prop :=
  ∃ l1 l2 r, l = l1 ++ SCall (AStopSelf r) :: l2 ∧ in_handler (ch (sys_run (sys_init c) l1)) r ∧ awaits (sys_run (sys_init c) l1) i r.
(** In the execution [l], the actor number [i] got a message to stop. *)
Definition stop_received (c : option nat) (l : list sop) (i : nat) : Prop :=
  ∃ l1 l2 r, l = l1 ++ l2 ∧ got_stop (ch (sys_run (sys_init c) l1)) r ∧ awaits (sys_run (sys_init c) l1) i r.
(** The actor number [i] awaits a hook, a message or a handler. *)
Definition at_await (y : sys) (i : nat) : Prop :=
  ∃ t, tk y !! i = Some t ∧
    (t_st t = TStart ∨ t_st t = TStop ∨ ∃ r h, t_st t = TAwait r ∧ hols (ch y) !! r = Some h ∧ ((∃ o, h_st h = HRecvWait o) ∨ ∃ a, h_st h = HRun a)).
(** In the execution [l], the actor number [i] was dropped or panicked while it awaited something. *)
Definition cancelled (c : option nat) (l : list sop) (i : nat) : Prop :=
  ∃ l1 l2, l = l1 ++ SCancel i :: l2 ∧ at_await (sys_run (sys_init c) l1) i.
(** The receive future number [r] has no message yet and was not given one: it does not exist yet, was never polled, or
    is idle. *)
Definition fresh (s : state) (r : nat) : Prop :=
  hols s !! r = None ∨ (∃ h, hols s !! r = Some h ∧ h_st h = HRecvNew) ∨ idle s r.
(** In the execution [l], a running handler called [stop_all]. *)
Definition all_stopped (c : option nat) (l : list sop) : Prop :=
  ∃ l1 l2 r, l = l1 ++ SCall (AStopAll r) :: l2 ∧ in_handler (ch (sys_run (sys_init c) l1)) r.
(** Nothing that counts as a strong address is left. *)
Definition no_strong (s : state) : Prop := strong_addresses s = 0 ∧ strong_futures s = 0 ∧ strong_calls s = 0.
(** The actor has started and is not about to stop. *)
Definition working (y : sys) (i : nat) : Prop := ∃ t, tk y !! i = Some t ∧ (t_st t = TLoop ∨ ∃ r, t_st t = TAwait r).
(** Nobody calls [stop_self] or [stop_all]. *)
Definition no_stops (l : list sop) : Prop := ∀ r, SCall (AStopSelf r) ∉ l ∧ SCall (AStopAll r) ∉ l.
