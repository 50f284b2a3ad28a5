(** Specification vocabulary for sinks. *)
From stdpp Require Import base numbers list.
From Verif Require Import State Model Spec Sink.

(** The event is about the unicast message [m]. *)
Definition concerns (m : nat) (e : ev) : Prop :=
  match e with
  | EvPrio x _ | EvAccept x | EvBlocked x | EvDone x _ | EvDrop x _ => x = m
  | EvRecv _ (ToOne k) | EvHandle _ (ToOne k) => um_id k = m
  | _ => False
  end.
(** The handler of [m] returned before anything at all happened to [m'] (even its creation). *)
Definition done_before (s : state) (m m' : nat) : Prop :=
  ∀ l1 e l2, log s = l1 ++ e :: l2 → concerns m' e → ∃ v, EvDone m v ∈ l2.
(** The address [a] is live. *)
Definition live_address (s : state) (a : nat) : Prop := ∃ x, addrs s !! a = Some x ∧ ad_live x = true.
(** The messages of the items that the sink accepted, in order. *)
Definition starts (h : list kev) : list nat := omap (λ e, match e with KStart m => Some m | _ => None end) h.
Definition started (x : sks) : list nat := starts (sk_hist x).
