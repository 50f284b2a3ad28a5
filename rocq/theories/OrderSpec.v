(** Vocabulary for the order of default-priority messages. *)
From stdpp Require Import base numbers list list_numbers.
From Verif Require Import Prio Heap State Model Spec.

(** How many receive futures exist. *)
Definition receiving (s : state) : nat :=
  cnt (λ h, match h_st h with HRecvNew | HRecvBusy | HRecvWait _ => true | _ => false end) (hols s).
(** The receive future [r] waits. *)
Definition waits (s : state) (r : nat) : Prop := ∃ b o k w, hols s !! r = Some (HO b (HRecvWait o) k w).
(** Throughout the execution at most [n] messages are queued, at most one receive future exists at a time, and no waiting
    receive future is dropped. *)
Definition orderly (n : nat) (c : option nat) (ops : list op) : Prop :=
  ∀ k, let s := run (init c) (take k ops) in
    length (uq s) ≤ n ∧ receiving s ≤ 1 ∧ ∀ r, ops !! k = Some (ADropHol r) → ¬ waits s r.
(** No send was ever blocked. *)
Definition none_blocked (s : state) : Prop := ∀ m, ¬ happened (EvBlocked m) s.
