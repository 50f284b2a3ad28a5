{
 "claims": [
  {
   "property": "C01",
   "status": "proved",
   "theorems": [
    "C01_at_most_once"
   ],
   "note": "every interleaving of atomic actions; counts of the history"
  },
  {
   "property": "C02",
   "status": "proved",
   "theorems": [
    "C02_accounted",
    "C02_in_flight",
    "C02_resolved_accepted",
    "C02_handed_accepted",
    "C02_reasons"
   ],
   "note": "exact accounting of every accepted message; C02_reasons says what must have happened for each reason of a drop"
  },
  {
   "property": "C03",
   "status": "proved",
   "theorems": [
    "C03_failed_never_received",
    "C03_cancelled_never_received"
   ],
   "note": "cancelled: measured when the destructor of the blocked send future has returned"
  },
  {
   "property": "C04",
   "status": "partial",
   "theorems": [
    "C04_window_refuted",
    "C04_put_back_partial",
    "C04_sequential_partial"
   ],
   "note": "false: a message assigned between the destructor's check and the drop of its one-shot receiver is lost; proved: put back if it was assigned before the destructor looks, and never lost when calls do not overlap"
  },
  {
   "property": "C05",
   "status": "proved",
   "theorems": [
    "C05_accepted_once",
    "C05_reaches_every_mailbox",
    "C05_exactly_once"
   ],
   "note": "mailboxes are identified with their broadcast queues; a queue is owned as long as any handle (mailbox, receive future, message, handler) on it exists"
  },
  {
   "property": "C06",
   "status": "proved",
   "theorems": [
    "C06_later_mailbox_never_receives",
    "C06_clone_has_new_queue"
   ],
   "note": ""
  },
  {
   "property": "C07",
   "status": "proved",
   "theorems": [
    "C07_highest_priority",
    "C07_completes"
   ],
   "note": "may_take spells out the order; C07_completes says when a fresh receive completes at once"
  },
  {
   "property": "C08",
   "status": "proved",
   "theorems": [
    "C08_stop_reaches_every_mailbox",
    "C08_stop_is_next",
    "C08_stop_breaks"
   ],
   "note": "the stop signal is put by the action UStopAll, which AStopAll performs first whenever a strong address exists"
  },
  {
   "property": "C09",
   "status": "proved",
   "theorems": [
    "C09_priority_order"
   ],
   "note": "drains: consecutive fresh receives on one mailbox with nothing accepted or taken by others in between"
  },
  {
   "property": "C10",
   "status": "partial",
   "theorems": [
    "C10_send_order_refuted",
    "C10_short_queue_partial",
    "C10_four_refuted"
   ],
   "note": "false: five default-priority sends to one idle actor are handled in the order 0,2,4,1,3 (BinaryHeap is not stable), and four queued messages already suffice; proved for executions in which at most three messages are ever queued, one receive future exists at a time, no send blocks and no waiting receive future is dropped"
  },
  {
   "property": "C11",
   "status": "partial",
   "theorems": [
    "C11_admission_partial",
    "C11_first_come_refuted"
   ],
   "note": "priority part proved; first-come-first-served is false (max_by_key picks the last maximum)"
  },
  {
   "property": "C12",
   "status": "partial",
   "theorems": [
    "C12_capacity_partial",
    "C12_capacity_refuted"
   ],
   "note": "false: a message given back by a dropped receive future is queued above the capacity; the excess is bounded by the number of dropped receiver objects"
  },
  {
   "property": "C13",
   "status": "proved",
   "theorems": [
    "C13_unicast",
    "C13_broadcast",
    "C13_idle_is_ready",
    "C13_ready_is_idle"
   ],
   "note": "decision taken inside the critical section of the send; the idle/ready theorems relate it to receive futures"
  },
  {
   "property": "C14",
   "status": "proved",
   "theorems": [
    "C14_blocked_only_if_full"
   ],
   "note": ""
  },
  {
   "property": "C15",
   "status": "proved",
   "theorems": [
    "C15_idle_means_empty",
    "C15_quiet"
   ],
   "note": "'not notified' excludes receivers whose end-of-life notification is being sent by a call in progress; unconditional in quiet states"
  },
  {
   "property": "C16",
   "status": "partial",
   "theorems": [
    "C16_no_standoff_partial",
    "C16_no_standoff_refuted"
   ],
   "note": "proved for every capacity except 0; false for capacity 0 (sender blocks first, then the receiver waits)"
  },
  {
   "property": "C17",
   "status": "proved",
   "theorems": [
    "C17_broadcast_backlog_bound"
   ],
   "note": "for every queue, live or not"
  },
  {
   "property": "C18",
   "status": "partial",
   "theorems": [
    "C18_blocked_by_gone_mailbox_refuted",
    "C18_blocked_by_lagging_mailbox_partial"
   ],
   "note": "false: a mailbox dropped with unreceived broadcasts leaves a stale broadcast_tail, which blocks later broadcasts for ever (bounded mailbox); proved for executions in which no queue is thrown away with unreceived broadcasts"
  },
  {
   "property": "C19",
   "status": "proved",
   "theorems": [
    "C19_len_at_least",
    "C19_len_exact"
   ],
   "note": "Address::len is chan_len"
  },
  {
   "property": "C20",
   "status": "proved",
   "theorems": [
    "C20_sender_count",
    "C20_no_underflow"
   ],
   "note": ""
  },
  {
   "property": "C21",
   "status": "proved",
   "theorems": [
    "C21_mailbox_count",
    "C21_no_underflow"
   ],
   "note": ""
  },
  {
   "property": "C22",
   "status": "proved",
   "theorems": [
    "C22_permanent",
    "C22_observed"
   ],
   "note": ""
  },
  {
   "property": "C23",
   "status": "proved",
   "theorems": [
    "C23_upgrade"
   ],
   "note": "the compare-exchange loop of try_new is one atomic action of the model"
  },
  {
   "property": "C24",
   "status": "proved",
   "theorems": [
    "C24_first_poll_fails",
    "C24_never_anything_else",
    "C24_message_not_queued",
    "C24_broadcast_not_put",
    "C24_error_only_if_disconnected"
   ],
   "note": "first poll performed as the only call resolves to the error; in any interleaving the future yields nothing else and its message is never queued, blocked or broadcast"
  },
  {
   "property": "C25",
   "status": "proved",
   "theorems": [
    "C25_idle_receivers_stop"
   ],
   "note": ""
  },
  {
   "property": "C26",
   "status": "partial",
   "theorems": [
    "C26_drained_partial",
    "C26_drained_refuted"
   ],
   "note": "proved for a receive that finds the end of life itself; false for a waiting receive that was notified before a cancelled receive gave its message back"
  },
  {
   "property": "C27",
   "status": "partial",
   "theorems": [
    "C27_late_send_refuted",
    "C27_blocked_disconnected",
    "C27_queued_interrupted",
    "C27_all_resolve_partial"
   ],
   "note": "false: a send that passed its connectedness check before the last mailbox was dropped is queued afterwards and never answered while an address is alive; proved: blocked sends fail, queued ones are interrupted, and everything resolves if no send was past its check"
  },
  {
   "property": "C28",
   "status": "proved",
   "theorems": [
    "C28_value_of_own_message",
    "C28_receiver_value_of_own_message",
    "C28_completes_once",
    "C28_distinct_messages",
    "C28_message_follows_future"
   ],
   "note": ""
  },
  {
   "property": "C29",
   "status": "proved",
   "theorems": [
    "C29_sender_resolvable",
    "C29_receiver_resolvable",
    "C29_interrupted_only_if_dropped"
   ],
   "note": "resolvable: polling once with no other call in progress returns the stated result"
  },
  {
   "property": "C30",
   "status": "proved",
   "theorems": [
    "C30_outcomes"
   ],
   "note": ""
  },
  {
   "property": "C31",
   "status": "proved",
   "theorems": [
    "C31_receiver_woken",
    "C31_ready_receiver_woken",
    "C31_waker_fresh"
   ],
   "note": "each poll uses a fresh waker number; both forms: assigned anything / polling would complete it"
  },
  {
   "property": "C32",
   "status": "proved",
   "theorems": [
    "C32_sender_woken",
    "C32_ready_sender_woken",
    "C32_waker_fresh",
    "C32_receiver_woken",
    "C32_ready_receiver_woken"
   ],
   "note": "blocked sends, sends waiting for the reply, detached receivers"
  },
  {
   "property": "C33",
   "status": "proved",
   "theorems": [
    "C33_only_if_disconnected",
    "C33_resolved_after_end",
    "C33_waker_fresh"
   ],
   "note": "the hypothesis is only that the destructor of the last mailbox has run its shutdown action, not that nothing else is in progress"
  },
  {
   "property": "C34",
   "status": "partial",
   "theorems": [
    "C34_join_refuted",
    "C34_late_join_partial",
    "C34_no_mailbox_partial"
   ],
   "note": "false: join listens to the last mailbox only, not to the loss of the last strong address; proved: a join handle asked for after the disconnection resolves, and every join handle resolves once the mailboxes are gone"
  },
  {
   "property": "C35",
   "status": "proved",
   "theorems": [
    "C35_history",
    "C35_while_connected",
    "C35_result_of_inner",
    "C35_none_after_stop",
    "C35_none_only_if_disconnected",
    "C35_woken_by_stop"
   ],
   "note": "the inner future is the environment (its answers are arguments of the operations); the two halves of a poll interleave with everything else"
  },
  {
   "property": "C36",
   "status": "proved",
   "theorems": [
    "C36_equality",
    "C36_equivalence",
    "C36_hash"
   ],
   "note": "addresses, channels and erased channels; hash = (channel, strength) bytes"
  },
  {
   "property": "C37",
   "status": "partial",
   "theorems": [
    "C37_either_refuted",
    "C37_same_strength_partial",
    "C37_partial_cmp_partial",
    "C37_order_partial"
   ],
   "note": "false: cmp looks at the channel only, so a strong and a weak address of one channel are Equal under cmp but not ==; proved: cmp agrees with == among addresses of one strength and is a total order up to that"
  },
  {
   "property": "C38",
   "status": "proved",
   "theorems": [
    "C38_life_cycle",
    "C38_order",
    "C38_failed_start",
    "C38_result",
    "C38_stopped",
    "C38_progress"
   ],
   "note": "environment = arbitrary answers of every polled future; dropping the run future is not modelled"
  },
  {
   "property": "C39",
   "status": "partial",
   "theorems": [
    "C39_refuted",
    "C39_before_partial",
    "C39_only_partial"
   ],
   "note": "false: the message found by now_or_never after the future returned is dispatched and its control flow ignored; proved for every stop request made before that"
  },
  {
   "property": "C40",
   "status": "proved",
   "theorems": [
    "C40_select",
    "C40_join",
    "C40_order",
    "C40_select_result",
    "C40_join_result",
    "C40_progress",
    "C40_completes"
   ],
   "note": "join completes provided the future returns after finitely many polls and every dispatch does"
  },
  {
   "property": "C41",
   "status": "proved",
   "theorems": [
    "C41_no_internal_panic"
   ],
   "note": "every unwrap/expect/unreachable of the modelled functions is an EvPanic/OPanic branch of the machine"
  },
  {
   "property": "C42",
   "status": "proved",
   "theorems": [
    "C42_last_priority",
    "C42_who_sets",
    "C42_sets",
    "C42_late_panics",
    "C42_broadcast_priority"
   ],
   "note": "unicast and broadcast; last_set / last_bset say which priority was given last; a late priority call panics and only drops its own future"
  },
  {
   "property": "C43",
   "status": "partial",
   "theorems": [
    "C43_stop_all_without_strong_refuted",
    "C43_stop_all_partial"
   ],
   "note": "false: stop_all does nothing when no strong address exists; proved: with a strong address every mailbox gets the signal"
  },
  {
   "property": "C44",
   "status": "proved",
   "theorems": [
    "C44_break_iff",
    "C44_frame"
   ],
   "note": "Break iff the handler called stop_self or a stop message was dispatched; the call changes only the flag of its own dispatch"
  },
  {
   "property": "C45",
   "status": "proved",
   "theorems": [
    "C45_only_own_message",
    "C45_one_step",
    "C45_broadcast",
    "C45_slot"
   ],
   "note": "the call is three atomic actions, one of which removes the message; frame of that action under every interleaving and of the whole call run without interruption"
  },
  {
   "property": "C46",
   "status": "partial",
   "theorems": [
    "C46_shared_capacity_refuted",
    "C46_unicast_partial",
    "C46_broadcast_partial"
   ],
   "note": "false: one capacity for all unicast messages; proved: broadcasts and unicast messages do not compete"
  },
  {
   "property": "C47",
   "status": "proved",
   "theorems": [
    "C47_chain",
    "C47_conversions_exist",
    "C47_upgrade",
    "C47_sender_count",
    "C47_others_untouched"
   ],
   "note": "all chains of conversions, any number of channels and handles"
  },
  {
   "property": "C48",
   "status": "proved",
   "theorems": [
    "C48_items_in_order",
    "C48_starts_after_done",
    "C48_never_before",
    "C48_ready_after_done"
   ],
   "note": "futures_util sink::unfold is modelled as read from its documentation; a sink made from any live address in any reachable state, everything else interleaves"
  },
  {
   "property": "C49",
   "status": "partial",
   "theorems": [
    "C49_deadlock_refuted",
    "C49_deadlock_blocked_refuted",
    "C49_no_strong_in_messages_partial",
    "C49_program_keeps_address_partial"
   ],
   "note": "the full claim is false (two counterexamples: a queued and a waiting message that own the last strong address); true when no message owns a strong address of its actor, or while the program owns one. Own small model of the lock and the drops (Reent.v)"
  },
  {
   "property": "C50",
   "status": "proved",
   "theorems": [
    "C50_last_reference"
   ],
   "note": "channel freed as soon as nothing owns it; a call in progress owns it until it returns"
  },
  {
   "property": "C51",
   "status": "proved",
   "theorems": [
    "C51_all_settle",
    "C51_call_finishes"
   ],
   "note": "completion of each call (other than polls of receive futures) regardless of other threads, and of all calls if none begins. Atomic actions are those of the model: the time to acquire the mutex is not modelled"
  },
  {
   "property": "C52",
   "status": "proved",
   "theorems": [
    "C52_at_most_once",
    "C52_receiver_not_early",
    "C52_sender_not_early",
    "C52_reply_not_early",
    "C52_join_not_early"
   ],
   "note": "every poll is given a fresh waker; wakers of the executor itself are not modelled"
  },
  {
   "property": "C53",
   "status": "proved",
   "theorems": [
    "C53_actors_settle",
    "C53_no_message_left",
    "C53_last_address"
   ],
   "note": "model of tasks in System.v on top of the channel model; hooks and handlers that panic and tasks that are dropped: see C56. No sender is blocked: unless the capacity is 0 (see C16)"
  },
  {
   "property": "C54",
   "status": "proved",
   "theorems": [
    "C54_stop_message",
    "C54_stop_self",
    "C54_stop_all",
    "C54_stop_reason",
    "C54_stop_cause",
    "C54_stop_all_next",
    "C54_start_error",
    "C54_mailbox_dropped"
   ],
   "note": "same model of tasks as C53; stop_all assumes that nobody but the tasks makes receive futures, otherwise another receive future of the mailbox can take its message"
  },
  {
   "property": "C55",
   "status": "proved",
   "theorems": [
    "C55_keeps_working",
    "C55_handled",
    "C55_answered",
    "C55_answered_if_actor_left"
   ],
   "note": "same model of tasks as C53; only the tasks receive messages; unicast calls, capacity not 0 (broadcasts may stay blocked, see C18, and a send into a mailbox of capacity 0 may, see C16); callers are woken and one poll away from their answer, their executors are not modelled"
  },
  {
   "property": "C56",
   "status": "proved",
   "theorems": [
    "C56_gone",
    "C56_messages",
    "C56_losses",
    "C56_callers"
   ],
   "note": "same model of tasks as C53 with SCancel: a panic unwinds the task from the await point at which it happens; mutex poisoning cannot arise there (no lock is held at an await point). Callers: unicast calls, capacity not 0, as in C55"
  },
  {
   "property": "C57",
   "status": "proved",
   "theorems": [
    "C57_assert",
    "C57_request",
    "C57_handler",
    "C57_count",
    "C57_distinct",
    "C57_first_poll",
    "C57_transparent"
   ],
   "note": "model in Span.v on top of the channel model; spans of xtra are all recorded or all filtered out; when spans are closed and which fields they record is not modelled"
  },
  {
   "property": "C58",
   "status": "partial",
   "theorems": [
    "C58_never_pending_partial",
    "C58_completes_partial",
    "C58_first_poll",
    "C58_shared_mailbox_refuted",
    "C58_final_poll",
    "C58_final_poll_race_refuted"
   ],
   "note": "for the news of a broadcast only if no mailbox has two receive futures at a time: otherwise one can take the broadcast before the other, which then returns Pending (C58_shared_mailbox_refuted); the final poll keeps the order only if no message is sent between it and the drop (C58_final_poll_race_refuted)"
  },
  {
   "property": "C59",
   "status": "proved",
   "theorems": [
    "C59_at_most_once",
    "C59_handled_at_rest",
    "C59_every_actor",
    "C59_broadcasters_proceed",
    "C59_gone_actor_blocks"
   ],
   "note": "same model of tasks as C53; cancelled actors count as stopped; stop_all is a broadcast of another kind (C21, C54). That every mailbox is run by an actor that has not stopped is needed for the callers: C59_gone_actor_blocks (see C18, of which this is an instance)"
  },
  {
   "property": "C60",
   "status": "proved",
   "theorems": [
    "C60_all_stopped",
    "C60_last_address",
    "C60_stop_all",
    "C60_not_before",
    "C60_idle_mailbox_blocks"
   ],
   "note": "same model of tasks as C53; a join handle made after the last strong address was dropped may return while actors still run (C34), hence the exception"
  }
 ]
}