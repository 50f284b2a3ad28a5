(** Vocabulary for calls to actors on executors. *)
From stdpp Require Import base numbers list.
From Verif Require Import Prio Heap State Model Spec.

(** Every send future and detached receiver whose last poll returned Pending has been woken, its message was handled, and
    polling it now resolves it to what the handler returned (a detached send: to its receiver). *)
Definition answered (s : state) : Prop :=
  (∀ f x m, sfs s !! f = Some x → send_pending x → sf_mode x = MReturn m →
    woken s (sf_wk x) ∧ ∃ v, happened (EvDone m v) s ∧ resolves_to s f (OValue v)) ∧
  (∀ f x m, sfs s !! f = Some x → send_pending x → sf_mode x = MDetached (Some m) →
    woken s (sf_wk x) ∧ ∃ v, happened (EvDone m v) s ∧ resolves_to s f (OReceiver (length (rcvs s)))) ∧
  (∀ i x, receiver_pending s i x →
    woken s (rc_wk x) ∧ ∃ v, happened (EvDone (rc_m x) v) s ∧ receiver_resolves_to s i (OValue v)).
(** Like [answered], but a message may also have been lost with an actor that was dropped or panicked: with the running
    handler, or while the receive future was being dropped.  Then the caller gets [Error::Interrupted]. *)
Definition lost (m : nat) (s : state) : Prop := happened (EvDrop m DUserRun) s ∨ happened (EvDrop m DWindow) s.
Definition settled_call (s : state) (m : nat) (R : sout → Prop) : Prop :=
  (∃ v, happened (EvDone m v) s ∧ R (OValue v)) ∨ lost m s ∧ R OErrInterrupted.
Definition answered_or_lost (s : state) : Prop :=
  (∀ f x m, sfs s !! f = Some x → send_pending x → sf_mode x = MReturn m → woken s (sf_wk x) ∧ settled_call s m (resolves_to s f)) ∧
  (∀ f x m, sfs s !! f = Some x → send_pending x → sf_mode x = MDetached (Some m) →
    woken s (sf_wk x) ∧ resolves_to s f (OReceiver (length (rcvs s))) ∧ ((∃ v, happened (EvDone m v) s) ∨ lost m s)) ∧
  (∀ i x, receiver_pending s i x → woken s (rc_wk x) ∧ settled_call s (rc_m x) (receiver_resolves_to s i)).
