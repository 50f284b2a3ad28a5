(** Property theorems, part G: the control loops [run], [select] and [join].
    [n] is the number of elementary steps, [e] the environment: what the futures polled by
    the loops answer, as a function of everything that happened before. *)
From stdpp Require Import base numbers list.
From Verif Require Import Actor ActorSpec ClaimsG.

(** An environment in which nothing is ready at once: [started] needs three polls, every
    third poll of [next] yields a message, the third dispatch asks to stop, the future
    returns 9 after its tenth poll. *)
Definition busy_env : env := Env
  (λ h, if length h <? 2 then None else Some None)
  (λ h, if Nat.eqb (length h mod 3) 0 then Some (length h) else None)
  (λ h, if Nat.eqb (length h mod 2) 0 then None else Some (length (dispatched h) <? 2))
  (λ h, if Nat.eqb (length h mod 5) 0 then Some 7 else None)
  (λ h, if fut_polls h <? 10 then None else Some 9).

(** ** C38: [run] *)
Theorem C38_life_cycle : ∀ n e, all_legal legal_run (snd (run_for n e)).
Proof. exact g38_legal. Qed.
Print Assumptions C38_life_cycle.
Theorem C38_order : ∀ n e, taken (snd (run_for n e)) = dispatched (snd (run_for n e)) ∨
  ∃ m, taken (snd (run_for n e)) = dispatched (snd (run_for n e)) ++ [m].
Proof. exact g38_order. Qed.
Print Assumptions C38_order.
Theorem C38_failed_start : ∀ n e v, PollStarted (Some (Some v)) ∈ snd (run_for n e) →
  fst (run_for n e) = RDone v ∧ last (snd (run_for n e)) = Some (PollStarted (Some (Some v))).
Proof. exact g38_failed. Qed.
Print Assumptions C38_failed_start.
Example C38_failed_example : snd (run_for 5 (Env (λ h, if length h <? 2 then None else Some (Some 3)) (λ _, Some 0) (λ _, Some true) (λ _, Some 0) (λ _, None))) =
  [PollStarted None; PollStarted None; PollStarted (Some (Some 3))].
Proof. reflexivity. Qed.
Theorem C38_result : ∀ n e v, fst (run_for n e) = RDone v ↔
  last (snd (run_for n e)) = Some (PollStarted (Some (Some v))) ∨ last (snd (run_for n e)) = Some (PollStopped (Some v)).
Proof. exact g38_result. Qed.
Print Assumptions C38_result.
Theorem C38_stopped : ∀ n e, stop_asked (snd (run_for n e)) →
  (∃ v, fst (run_for n e) = RDone v ∧ PollStopped (Some v) ∈ snd (run_for n e)) ∨
  ∃ r, snd (run_for (S n) e) = snd (run_for n e) ++ [PollStopped r].
Proof. exact g38_stop. Qed.
Print Assumptions C38_stopped.
Theorem C38_progress : ∀ n e, (∃ v, fst (run_for n e) = RDone v ∧ run_for (S n) e = run_for n e) ∨
  (∃ x, snd (run_for (S n) e) = snd (run_for n e) ++ [x]).
Proof. exact g38_progress. Qed.
Print Assumptions C38_progress.
Example C38_example : fst (run_for 40 busy_env) = RDone 7 ∧
  length (taken (snd (run_for 40 busy_env))) = 3 ∧ taken (snd (run_for 40 busy_env)) = dispatched (snd (run_for 40 busy_env)) ∧
  stop_asked (snd (run_for 40 busy_env)).
Proof. split; [reflexivity|]. split; [reflexivity|]. split; [reflexivity|]. exists 15. apply elem_of_list_In. vm_compute. tauto. Qed.

(** ** C39: a stop request while selecting.  False: *)
Theorem C39_refuted : ∃ n e v m, fst (select_for n e) = SLeft v ∧ PollDispatch m (Some false) ∈ snd (select_for n e).
Proof. exact g39_refuted. Qed.
Print Assumptions C39_refuted.
(** True of every stop request made before the future returned. *)
Theorem C39_before_partial : ∀ n e, stop_asked (snd (select_for n e)) → ¬ fut_done (snd (select_for n e)) → fst (select_for n e) = SRight.
Proof. exact g39_stop. Qed.
Print Assumptions C39_before_partial.
Theorem C39_only_partial : ∀ n e, fst (select_for n e) = SRight →
  ¬ fut_done (snd (select_for n e)) ∧ taken (snd (select_for n e)) = dispatched (snd (select_for n e)) ∧
  ∃ m, last (snd (select_for n e)) = Some (PollDispatch m (Some false)).
Proof. exact g39_right. Qed.
Print Assumptions C39_only_partial.
Example C39_example : fst (select_for 40 busy_env) = SRight.
Proof. reflexivity. Qed.

(** ** C40: [select] and [join] *)
Theorem C40_select : ∀ n e, all_legal legal_join (snd (select_for n e)).
Proof. exact g40_select. Qed.
Print Assumptions C40_select.
Theorem C40_join : ∀ n e, all_legal legal_join (snd (join_for n e)).
Proof. exact g40_join. Qed.
Print Assumptions C40_join.
Theorem C40_order : ∀ n e,
  (taken (snd (select_for n e)) = dispatched (snd (select_for n e)) ∨
   ∃ m, taken (snd (select_for n e)) = dispatched (snd (select_for n e)) ++ [m]) ∧
  (taken (snd (join_for n e)) = dispatched (snd (join_for n e)) ∨
   ∃ m, taken (snd (join_for n e)) = dispatched (snd (join_for n e)) ++ [m]).
Proof. exact g40_order. Qed.
Print Assumptions C40_order.
Theorem C40_select_result : ∀ n e v, fst (select_for n e) = SLeft v →
  PollFut (Some v) ∈ snd (select_for n e) ∧ taken (snd (select_for n e)) = dispatched (snd (select_for n e)).
Proof. exact g40_left. Qed.
Print Assumptions C40_select_result.
Theorem C40_join_result : ∀ n e v, fst (join_for n e) = JDone v →
  PollFut (Some v) ∈ snd (join_for n e) ∧ taken (snd (join_for n e)) = dispatched (snd (join_for n e)).
Proof. exact g40_result. Qed.
Print Assumptions C40_join_result.
Theorem C40_progress : ∀ n e, (∃ v, fst (select_for n e) = SLeft v) ∨ fst (select_for n e) = SRight ∨
  ∃ x, snd (select_for (S n) e) = snd (select_for n e) ++ [x].
Proof. exact g40_select_progress. Qed.
Print Assumptions C40_progress.
Theorem C40_completes : ∀ e k,
  (∀ h, k ≤ fut_polls h → e_fut e h ≠ None) →
  (∀ h m, ∃ j, e_dispatch e (h ++ replicate j (PollDispatch m None)) ≠ None) →
  ∃ n r, fst (join_for n e) = JDone r.
Proof. exact g40_completes. Qed.
Print Assumptions C40_completes.
Example C40_example : fst (join_for 60 busy_env) = JDone 9 ∧ length (dispatched (snd (join_for 60 busy_env))) = 3.
Proof. split; reflexivity. Qed.
