(** The claims about the control loops (C38, C39, C40), in the form they are stated in PropsG. *)
From stdpp Require Import base numbers list.
From Verif Require Import Actor ActorSpec ActorProofs.

Lemma g38_legal : ∀ n e, all_legal legal_run (snd (run_for n e)).
Proof. exact run_legal. Qed.
Lemma g38_order : ∀ n e, taken (snd (run_for n e)) = dispatched (snd (run_for n e)) ∨
  ∃ m, taken (snd (run_for n e)) = dispatched (snd (run_for n e)) ++ [m].
Proof. exact run_pending. Qed.
Lemma g38_failed : ∀ n e v, PollStarted (Some (Some v)) ∈ snd (run_for n e) →
  fst (run_for n e) = RDone v ∧ last (snd (run_for n e)) = Some (PollStarted (Some (Some v))).
Proof. exact run_failed. Qed.
Lemma g38_result : ∀ n e v, fst (run_for n e) = RDone v ↔
  last (snd (run_for n e)) = Some (PollStarted (Some (Some v))) ∨ last (snd (run_for n e)) = Some (PollStopped (Some v)).
Proof. exact run_result. Qed.
Lemma g38_stop : ∀ n e, stop_asked (snd (run_for n e)) →
  (∃ v, fst (run_for n e) = RDone v ∧ PollStopped (Some v) ∈ snd (run_for n e)) ∨
  ∃ r, snd (run_for (S n) e) = snd (run_for n e) ++ [PollStopped r].
Proof. exact run_stop. Qed.
Lemma g38_progress : ∀ n e, (∃ v, fst (run_for n e) = RDone v ∧ run_for (S n) e = run_for n e) ∨
  (∃ x, snd (run_for (S n) e) = snd (run_for n e) ++ [x]).
Proof. exact run_progress. Qed.

(** The future returns 9 at its first poll, the message then available asks to stop. *)
Definition env_lost_stop : env := Env (λ _, Some None) (λ _, Some 4) (λ _, Some false) (λ _, Some 0) (λ _, Some 9).
Lemma g39_refuted : ∃ n e v m, fst (select_for n e) = SLeft v ∧ PollDispatch m (Some false) ∈ snd (select_for n e).
Proof. exists 5, env_lost_stop, 9, 4. split; [reflexivity|]. vm_compute. do 3 right. left. Qed.
Lemma g39_stop : ∀ n e, stop_asked (snd (select_for n e)) → ¬ fut_done (snd (select_for n e)) → fst (select_for n e) = SRight.
Proof. exact select_stop. Qed.
Lemma g39_right : ∀ n e, fst (select_for n e) = SRight →
  ¬ fut_done (snd (select_for n e)) ∧ taken (snd (select_for n e)) = dispatched (snd (select_for n e)) ∧
  ∃ m, last (snd (select_for n e)) = Some (PollDispatch m (Some false)).
Proof. exact select_right. Qed.

Lemma g40_select : ∀ n e, all_legal legal_join (snd (select_for n e)).
Proof. exact select_legal. Qed.
Lemma g40_join : ∀ n e, all_legal legal_join (snd (join_for n e)).
Proof. exact join_legal. Qed.
Lemma g40_order : ∀ n e,
  (taken (snd (select_for n e)) = dispatched (snd (select_for n e)) ∨
   ∃ m, taken (snd (select_for n e)) = dispatched (snd (select_for n e)) ++ [m]) ∧
  (taken (snd (join_for n e)) = dispatched (snd (join_for n e)) ∨
   ∃ m, taken (snd (join_for n e)) = dispatched (snd (join_for n e)) ++ [m]).
Proof. intros n e. split; [apply select_pending|apply join_pending]. Qed.
Lemma g40_left : ∀ n e v, fst (select_for n e) = SLeft v →
  PollFut (Some v) ∈ snd (select_for n e) ∧ taken (snd (select_for n e)) = dispatched (snd (select_for n e)).
Proof. exact select_left. Qed.
Lemma g40_result : ∀ n e v, fst (join_for n e) = JDone v →
  PollFut (Some v) ∈ snd (join_for n e) ∧ taken (snd (join_for n e)) = dispatched (snd (join_for n e)).
Proof. exact join_result. Qed.
Lemma g40_select_progress : ∀ n e, (∃ v, fst (select_for n e) = SLeft v) ∨ fst (select_for n e) = SRight ∨
  ∃ x, snd (select_for (S n) e) = snd (select_for n e) ++ [x].
Proof. exact select_progress. Qed.
Lemma g40_completes : ∀ e k,
  (∀ h, k ≤ fut_polls h → e_fut e h ≠ None) →
  (∀ h m, ∃ j, e_dispatch e (h ++ replicate j (PollDispatch m None)) ≠ None) →
  ∃ n r, fst (join_for n e) = JDone r.
Proof. exact join_done. Qed.
