(** Property theorems, part S. *)
From stdpp Require Import base numbers list list_numbers.
From Verif Require Import Prio Heap State Model Spec Witness Span SpanSpec WitnessL ClaimsS.

(** ** C57.  Spans follow messages.  The assertion in [start_span] never fails. *)
Theorem C57_assert : ∀ on k l, p_bad (p_run (p_init on k) l) = false.
Proof. exact c57_assert. Qed.
Print Assumptions C57_assert.
Example C57_assert_example : p_bad (x_spans true) = false ∧ length (p_in (x_spans true)) = 3.
Proof. split; vm. Qed.
(** The request span of an accepted message is a child of the span that was current at the first poll of its send future,
    and the span for the time it waits is a child of that. *)
Theorem C57_request : ∀ on k l w, let x := p_run (p_init on k) l in accepted w (p_ch x) →
  ∃ c, sent_under (p_init on k) l w c ∧
    (on = true → ∃ q g, is_span x q (NRequest w) c ∧ is_span x g (NWaiting w) (Some (Xtra q))).
Proof. exact c57_request. Qed.
Print Assumptions C57_request.
Example C57_request_example : accepted (One 0) (p_ch (x_spans true)) ∧ accepted (All 0) (p_ch (x_spans true)) ∧
  is_span (x_spans true) 0 (NRequest (One 0)) (Some (User 1)) ∧ is_span (x_spans true) 1 (NWaiting (One 0)) (Some (Xtra 0)) ∧
  is_span (x_spans true) 7 (NRequest (One 1)) (Some (Xtra 4)).
Proof.
  split_and!; try vm; cbn [accepted]; [apply elem_of_list_In; vm_compute; tauto|]. exists 0%N, [0; 1]. apply elem_of_list_In. vm_compute. tauto.
Qed.
(** Every handler runs in a span of its own, a child of the request span of its message; if the subscriber filters out
    the spans of xtra, it runs in the span that was current at the first poll of the send future, if there was one. *)
Theorem C57_handler : ∀ on k l r a, let x := p_run (p_init on k) l in happened (EvHandle r a) (p_ch x) →
  ∃ w e c d, who_a a = Some w ∧ runs_in x r a e ∧ sent_under (p_init on k) l w c ∧ ran_under (p_init on k) l r d ∧
    if on then ∃ h q, e = Some (Xtra h) ∧ is_span x h (NHandler w) (Some (Xtra q)) ∧ is_span x q (NRequest w) c
    else e = match c with Some _ => c | None => d end.
Proof. exact c57_handler. Qed.
Print Assumptions C57_handler.
Example C57_handler_example : happened (EvHandle 2 (ToOne (UM 0 0))) (p_ch (x_spans true)) ∧
  runs_in (x_spans true) 2 (ToOne (UM 0 0)) (Some (Xtra 4)) ∧ is_span (x_spans true) 4 (NHandler (One 0)) (Some (Xtra 0)) ∧
  runs_in (x_spans false) 2 (ToOne (UM 0 0)) (Some (User 1)) ∧ runs_in (x_spans false) 3 (ToAll (BM 0 0)) (Some (User 9)).
Proof. split_and!; try vm; apply elem_of_list_In; vm_compute; tauto. Qed.
(** One request span per message, one handler span per handler invoked, no others; none if they are filtered out. *)
Theorem C57_count : ∀ on k l w, let x := p_run (p_init on k) l in
  if on then named x (NRequest w) ≤ 1 ∧ named x (NWaiting w) = named x (NRequest w) ∧ named x (NHandler w) = handlers w (p_ch x)
  else p_sp x = [].
Proof. exact c57_count. Qed.
Print Assumptions C57_count.
Example C57_count_example : named (x_spans true) (NRequest (All 0)) = 1 ∧ named (x_spans true) (NHandler (All 0)) = 2 ∧ p_sp (x_spans false) = [].
Proof. split_and!; vm. Qed.
Theorem C57_distinct : ∀ on k l, let x := p_run (p_init on k) l in
  on = true → NoDup (snd <$> p_ex x) ∧ fst <$> p_ex x = handled (log (p_ch x)).
Proof. exact c57_distinct. Qed.
Print Assumptions C57_distinct.
Example C57_distinct_example : p_ex (x_spans true) =
  [(4, ToAll (BM 0 0), Some (Xtra 6)); (3, ToAll (BM 0 0), Some (Xtra 5)); (2, ToOne (UM 0 0), Some (Xtra 4))].
Proof. vm. Qed.
(** A send future has one first poll. *)
Theorem C57_first_poll : ∀ on k l w c c', sent_under (p_init on k) l w c → sent_under (p_init on k) l w c' → c = c'.
Proof. exact c57_first. Qed.
Print Assumptions C57_first_poll.
Example C57_first_poll_example : sent_under (p_init true (Some 8)) l_spans (One 0) (Some (User 1)).
Proof. exact (sent_spans true). Qed.
(** Spans change nothing else: the channel behaves as without them. *)
Theorem C57_transparent : ∀ on k l, p_ch (p_run (p_init on k) l) = run (init k) (plain <$> l).
Proof. exact c57_transparent. Qed.
Print Assumptions C57_transparent.
Example C57_transparent_example : length (log (p_ch (x_spans true))) = 14 ∧ length (plain <$> l_spans) = 55.
Proof. split; vm. Qed.
