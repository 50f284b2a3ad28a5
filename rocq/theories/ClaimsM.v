(** The property statements, derived from the invariants (part M: every call completes). *)
From stdpp Require Import base numbers list list_numbers.
From Coq Require Import Lia.
From Verif Require Import Prio Heap State Model Lib Spec Bridge Witness ClaimsA FinishSpec FinishProofs.

(** Capacity 1: one send is blocked, two more are in progress, one receive future is being polled and the last strong
    address is being dropped. *)
Definition w_rush : state :=
  run (drive (init (Some 1)) (send 0 0 ++ send 0 1 ++ [ASend 0; ABroadcast 0])) [APollSend 2; APollSend 3; ANext 0; APollRecv 1; ADropAddr 0].

Lemma c51_settle : ∀ s, reachable s → settles s.
Proof. intros s H. rch. by apply calls_settle. Qed.
Lemma c51_call : ∀ s o, reachable s → (∀ r, o ≠ APollRecv r) →
  length (thr s) < length (thr (step s o)) → finishes (length (thr s)) (step s o).
Proof.
  intros s o H Ho [p Hp]%lookup_lt_is_Some. eapply call_finishes; [done|]. by eapply api_own.
Qed.
