(** Property theorems, part I. *)
From stdpp Require Import base numbers list list_numbers.
From Coq Require Import Lia.
From Verif Require Import Prio Heap State Model Lib Spec Scoped ScopedSpec WitnessG Witness ClaimsI.

(** ** C35: each poll of a scoped task polls the join handle first; the inner future is polled exactly if the join
    handle was found pending, and then its answer is the answer of the task; the task yields [None] exactly if the
    join handle was found resolved, and then the inner future is not polled.  The join handle is found pending while
    the channel is connected and resolved once the actor has stopped; the task is woken when the actor stops. *)
Theorem C35_history : ∀ c ops, task_history_ok (sc_hist (sc_run c ops)).
Proof. exact c35_history. Qed.
Print Assumptions C35_history.
Theorem C35_while_connected : ∀ c ops i j, let x := sc_run c ops in sc_tasks x !! i = Some (TK j TReady) → is_conn (sc_main x) →
  sc_hist (sc_step x (SPoll i)) = sc_hist x ++ [TPollJoin i false] ∧ sc_tasks (sc_step x (SPoll i)) !! i = Some (TK j TInner).
Proof. exact c35_pending_goes_on. Qed.
Print Assumptions C35_while_connected.
Theorem C35_result_of_inner : ∀ c ops i j r, let x := sc_run c ops in sc_tasks x !! i = Some (TK j TInner) →
  sc_hist (sc_step x (SInner i r)) = sc_hist x ++ [TPollInner i r; TReturn i (option_map Some r)] ∧
  sc_main (sc_step x (SInner i r)) = sc_main x.
Proof. exact c35_inner. Qed.
Print Assumptions C35_result_of_inner.
Theorem C35_none_after_stop : ∀ c ops i j, let x := sc_run c ops in sc_tasks x !! i = Some (TK j TReady) → stopped (sc_main x) →
  sc_hist (sc_step x (SPoll i)) = sc_hist x ++ [TPollJoin i true; TReturn i (Some None)].
Proof. exact c35_after_stop. Qed.
Print Assumptions C35_none_after_stop.
Theorem C35_none_only_if_disconnected : ∀ c ops o k i, let x := sc_run c ops in sc_hist (sc_step x o) = sc_hist x ++ k → TReturn i (Some None) ∈ k →
  o = SPoll i ∧ k = [TPollJoin i true; TReturn i (Some None)] ∧ ¬ is_conn (sc_main x).
Proof. exact c35_none_only. Qed.
Print Assumptions C35_none_only_if_disconnected.
Theorem C35_woken_by_stop : ∀ c ops i j, let x := sc_run c ops in sc_tasks x !! i = Some (TK j TReady) → stopped (sc_main x) →
  last_about i (sc_hist x) (TReturn i None) → ∃ y, jhs (sc_main x) !! j = Some y ∧ woken (sc_main x) (jh_wk y).
Proof. exact c35_woken. Qed.
Print Assumptions C35_woken_by_stop.
Example C35_example :
  let x := sc_run None sc_ops1 in let y := sc_run None sc_ops2 in
  sc_tasks x !! 0 = Some (TK 0 TReady) ∧ is_conn (sc_main x) ∧ sc_tasks (sc_step x (SPoll 0)) !! 0 = Some (TK 0 TInner) ∧
  sc_tasks x !! 1 = Some (TK 1 TDone) ∧ TReturn 1 (Some (Some 5)) ∈ sc_hist x ∧
  sc_tasks y !! 0 = Some (TK 0 TReady) ∧ stopped (sc_main y) ∧ last_about 0 (sc_hist y) (TReturn 0 None).
Proof.
  cbv zeta. split; [vm|]. split; [vm_compute; lia|]. split; [vm|]. split; [vm|].
  split; [apply (elem_of_list_lookup_2 _ 10); vm|]. split; [vm|]. split; [split; [vm|split; vm]|].
  split; [done|]. exists (take 4 (sc_hist (sc_run None sc_ops2))), (drop 5 (sc_hist (sc_run None sc_ops2))). split; [vm|].
  vm_compute. intros e H. repeat (apply elem_of_cons in H as [->|H]; [done|]). by apply elem_of_nil in H.
Qed.
