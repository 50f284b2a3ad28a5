(** Lemmas for the property theorems, part S. *)
From stdpp Require Import base numbers list list_numbers.
From Verif Require Import Prio Heap State Model Spec Span SpanSpec SpanProofs.

Lemma c57_assert : ∀ on k l, p_bad (p_run (p_init on k) l) = false.
Proof. exact spans_assert. Qed.
Lemma c57_request : ∀ on k l w, let x := p_run (p_init on k) l in accepted w (p_ch x) →
  ∃ c, sent_under (p_init on k) l w c ∧
    (on = true → ∃ q g, is_span x q (NRequest w) c ∧ is_span x g (NWaiting w) (Some (Xtra q))).
Proof. exact spans_request. Qed.
Lemma c57_handler : ∀ on k l r a, let x := p_run (p_init on k) l in happened (EvHandle r a) (p_ch x) →
  ∃ w e c d, who_a a = Some w ∧ runs_in x r a e ∧ sent_under (p_init on k) l w c ∧ ran_under (p_init on k) l r d ∧
    if on then ∃ h q, e = Some (Xtra h) ∧ is_span x h (NHandler w) (Some (Xtra q)) ∧ is_span x q (NRequest w) c
    else e = match c with Some _ => c | None => d end.
Proof. exact spans_handler. Qed.
Lemma c57_count : ∀ on k l w, let x := p_run (p_init on k) l in
  if on then named x (NRequest w) ≤ 1 ∧ named x (NWaiting w) = named x (NRequest w) ∧ named x (NHandler w) = handlers w (p_ch x)
  else p_sp x = [].
Proof. exact spans_count. Qed.
Lemma c57_distinct : ∀ on k l, let x := p_run (p_init on k) l in
  on = true → NoDup (snd <$> p_ex x) ∧ fst <$> p_ex x = handled (log (p_ch x)).
Proof. exact spans_distinct. Qed.
Lemma c57_first : ∀ on k l w c c', sent_under (p_init on k) l w c → sent_under (p_init on k) l w c' → c = c'.
Proof. exact spans_first. Qed.
Lemma c57_transparent : ∀ on k l, p_ch (p_run (p_init on k) l) = run (init k) (plain <$> l).
Proof. exact spans_transparent. Qed.
