(** Property theorems, part J. *)
From stdpp Require Import base numbers list list_numbers.
From Coq Require Import Lia.
From Verif Require Import Prio Heap State Model Lib Spec Sink SinkSpec Witness WitnessH ClaimsJ.

(** ** C48: nothing happens to the message of an item of a sink, not even its creation, before the handler of every
    earlier item has returned; while an earlier item is not handled, feeding does not send; when the last item was
    handled, a poll makes the sink ready and feeding sends. *)
Theorem C48_items_in_order : ∀ s a ops i j mi mj, reachable s → live_address s a → let x := sk_run (sk_new s a) ops in
  started x !! i = Some mi → started x !! j = Some mj → i < j → done_before (sk_main x) mi mj.
Proof. exact c48_order. Qed.
Print Assumptions C48_items_in_order.
Theorem C48_starts_after_done : ∀ s a ops m, reachable s → live_address s a → let x := sk_run (sk_new s a) ops in
  sk_hist (sk_step x KItem) = sk_hist x ++ [KStart m] →
  (∀ m', m' ∈ started x → ∃ v, happened (EvDone m' v) (sk_main x)) ∧ newly (sk_main x) (sk_main (sk_step x KItem)) (EvPrio m 0).
Proof. exact c48_start. Qed.
Print Assumptions C48_starts_after_done.
Theorem C48_never_before : ∀ s a ops m, reachable s → live_address s a → let x := sk_run (sk_new s a) ops in
  m ∈ started x → (∀ v, ¬ happened (EvDone m v) (sk_main x)) → sk_main (sk_step x KItem) = sk_main x ∧ started (sk_step x KItem) = started x.
Proof. exact c48_not_before. Qed.
Print Assumptions C48_never_before.
Theorem C48_ready_after_done : ∀ s a ops m v, reachable s → live_address s a → let x := sk_run (sk_new s a) ops in
  quiet (sk_main x) → last (started x) = Some m → happened (EvDone m v) (sk_main x) → (∃ f, sk_st x = KSend f) →
  ∃ n, let y := sk_run x (KFlush :: replicate n (KMain (Step (length (thr (sk_main x))))) ++ [KResult]) in
  sk_hist y = sk_hist x ++ [KOk] ∧ sk_hist (sk_step y KItem) = sk_hist y ++ [KStart (length (reps (sk_main y)))].
Proof. exact c48_ready. Qed.
Print Assumptions C48_ready_after_done.
Example C48_example :
  let x := sk_run (sk_new (init None) 0) k_ops1 in let y := sk_run (sk_new (init None) 0) k_ops2 in
  reachable (init None) ∧ live_address (init None) 0 ∧
  quiet (sk_main x) ∧ last (started x) = Some 0 ∧ happened (EvDone 0 0) (sk_main x) ∧ sk_st x = KSend 0 ∧ KPanic ∈ sk_hist x ∧
  started y = [0; 1] ∧ happened (EvAccept 1) (sk_main y) ∧ (∀ v, ¬ happened (EvDone 1 v) (sk_main y)).
Proof.
  cbv zeta. split; [by exists None, []|]. split; [eexists; split; [vm|done]|].
  split; [apply quietb_spec; vm|]. split; [vm|]. split; [apply (happened_spec 1); vm|]. split; [vm|].
  split; [apply (elem_of_list_lookup_2 _ 2); vm|]. split; [vm|]. split; [apply (happened_spec 1); vm|].
  intros v H. by apply (happens_spec (λ e, match e with EvDone 1 _ => false | _ => true end)) in H; [|vm].
Qed.
