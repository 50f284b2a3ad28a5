(** Vocabulary for broadcasts to actors on executors. *)
From stdpp Require Import base numbers list.
From Verif Require Import Prio Heap State Model Spec System.

(** How often a handler was invoked for the broadcast number [i], with a message that a receive future of the mailbox with
    queue [b] returned. *)
Definition ran (i b : nat) (s : state) : nat :=
  times (λ e, match e with
              | EvHandle r (ToAll x) => (bm_id x =? i) && match hols s !! r with Some h => h_bq h =? b | None => false end
              | _ => false
              end) s.
(** The actor number [i] has not stopped; its mailbox has the queue [b]. *)
Definition runs_on (y : sys) (i b : nat) : Prop :=
  ∃ t h, tk y !! i = Some t ∧ t_st t ≠ TDone ∧ hols (ch y) !! t_mb t = Some h ∧ h_bq h = b.
(** Every mailbox that was ever made is run by an actor that has not stopped. *)
Definition all_run (y : sys) : Prop := ∀ b, b < length (bqueues (ch y)) → ∃ i, runs_on y i b.
(** Every broadcast that was polled and has not returned was woken, and polling it again returns [Ok]. *)
Definition broadcasts_sent (s : state) : Prop :=
  ∀ f x, sfs s !! f = Some x → send_pending x → sf_mode x = MBroadcast → woken s (sf_wk x) ∧ resolves_to s f OOk.
