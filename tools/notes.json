{
 "C01": [
  "proved",
  "every interleaving of atomic actions; counts of the history"
 ],
 "C07": [
  "proved",
  "may_take spells out the order; C07_completes says when a fresh receive completes at once"
 ],
 "C09": [
  "proved",
  "drains: consecutive fresh receives on one mailbox with nothing accepted or taken by others in between"
 ],
 "C10": [
  "partial",
  "false: five default-priority sends to one idle actor are handled in the order 0,2,4,1,3 (BinaryHeap is not stable), and four queued messages already suffice; proved for executions in which at most three messages are ever queued, one receive future exists at a time, no send blocks and no waiting receive future is dropped"
 ],
 "C11": [
  "partial",
  "priority part proved; first-come-first-served is false (max_by_key picks the last maximum)"
 ],
 "C12": [
  "partial",
  "false: a message given back by a dropped receive future is queued above the capacity; the excess is bounded by the number of dropped receiver objects"
 ],
 "C13": [
  "proved",
  "decision taken inside the critical section of the send; the idle/ready theorems relate it to receive futures"
 ],
 "C14": [
  "proved",
  ""
 ],
 "C15": [
  "proved",
  "'not notified' excludes receivers whose end-of-life notification is being sent by a call in progress; unconditional in quiet states"
 ],
 "C16": [
  "partial",
  "proved for every capacity except 0; false for capacity 0 (sender blocks first, then the receiver waits)"
 ],
 "C20": [
  "proved",
  ""
 ],
 "C21": [
  "proved",
  ""
 ],
 "C22": [
  "proved",
  ""
 ],
 "C23": [
  "proved",
  "the compare-exchange loop of try_new is one atomic action of the model"
 ],
 "C25": [
  "proved",
  ""
 ],
 "C26": [
  "partial",
  "proved for a receive that finds the end of life itself; false for a waiting receive that was notified before a cancelled receive gave its message back"
 ],
 "C02": [
  "proved",
  "exact accounting of every accepted message; C02_reasons says what must have happened for each reason of a drop"
 ],
 "C03": [
  "proved",
  "cancelled: measured when the destructor of the blocked send future has returned"
 ],
 "C28": [
  "proved",
  ""
 ],
 "C29": [
  "proved",
  "resolvable: polling once with no other call in progress returns the stated result"
 ],
 "C30": [
  "proved",
  ""
 ],
 "C41": [
  "proved",
  "every unwrap/expect/unreachable of the modelled functions is an EvPanic/OPanic branch of the machine"
 ],
 "C50": [
  "proved",
  "channel freed as soon as nothing owns it; a call in progress owns it until it returns"
 ],
 "C05": [
  "proved",
  "mailboxes are identified with their broadcast queues; a queue is owned as long as any handle (mailbox, receive future, message, handler) on it exists"
 ],
 "C06": [
  "proved",
  ""
 ],
 "C08": [
  "proved",
  "the stop signal is put by the action UStopAll, which AStopAll performs first whenever a strong address exists"
 ],
 "C17": [
  "proved",
  "for every queue, live or not"
 ],
 "C18": [
  "partial",
  "false: a mailbox dropped with unreceived broadcasts leaves a stale broadcast_tail, which blocks later broadcasts for ever (bounded mailbox); proved for executions in which no queue is thrown away with unreceived broadcasts"
 ],
 "C19": [
  "proved",
  "Address::len is chan_len"
 ],
 "C24": [
  "proved",
  "first poll performed as the only call resolves to the error; in any interleaving the future yields nothing else and its message is never queued, blocked or broadcast"
 ],
 "C04": [
  "partial",
  "false: a message assigned between the destructor's check and the drop of its one-shot receiver is lost; proved: put back if it was assigned before the destructor looks, and never lost when calls do not overlap"
 ],
 "C27": [
  "partial",
  "false: a send that passed its connectedness check before the last mailbox was dropped is queued afterwards and never answered while an address is alive; proved: blocked sends fail, queued ones are interrupted, and everything resolves if no send was past its check"
 ],
 "C34": [
  "partial",
  "false: join listens to the last mailbox only, not to the loss of the last strong address; proved: a join handle asked for after the disconnection resolves, and every join handle resolves once the mailboxes are gone"
 ],
 "C43": [
  "partial",
  "false: stop_all does nothing when no strong address exists; proved: with a strong address every mailbox gets the signal"
 ],
 "C46": [
  "partial",
  "false: one capacity for all unicast messages; proved: broadcasts and unicast messages do not compete"
 ],
 "C31": [
  "proved",
  "each poll uses a fresh waker number; both forms: assigned anything / polling would complete it"
 ],
 "C32": [
  "proved",
  "blocked sends, sends waiting for the reply, detached receivers"
 ],
 "C33": [
  "proved",
  "the hypothesis is only that the destructor of the last mailbox has run its shutdown action, not that nothing else is in progress"
 ],
 "C36": [
  "proved",
  "addresses, channels and erased channels; hash = (channel, strength) bytes"
 ],
 "C37": [
  "partial",
  "false: cmp looks at the channel only, so a strong and a weak address of one channel are Equal under cmp but not ==; proved: cmp agrees with == among addresses of one strength and is a total order up to that"
 ],
 "C47": [
  "proved",
  "all chains of conversions, any number of channels and handles"
 ],
 "C38": [
  "proved",
  "environment = arbitrary answers of every polled future; dropping the run future is not modelled"
 ],
 "C39": [
  "partial",
  "false: the message found by now_or_never after the future returned is dispatched and its control flow ignored; proved for every stop request made before that"
 ],
 "C40": [
  "proved",
  "join completes provided the future returns after finitely many polls and every dispatch does"
 ],
 "C42": [
  "proved",
  "unicast and broadcast; last_set / last_bset say which priority was given last; a late priority call panics and only drops its own future"
 ],
 "C44": [
  "proved",
  "Break iff the handler called stop_self or a stop message was dispatched; the call changes only the flag of its own dispatch"
 ],
 "C45": [
  "proved",
  "the call is three atomic actions, one of which removes the message; frame of that action under every interleaving and of the whole call run without interruption"
 ],
 "C35": [
  "proved",
  "the inner future is the environment (its answers are arguments of the operations); the two halves of a poll interleave with everything else"
 ],
 "C48": [
  "proved",
  "futures_util sink::unfold is modelled as read from its documentation; a sink made from any live address in any reachable state, everything else interleaves"
 ],
 "C49": [
  "partial",
  "the full claim is false (two counterexamples: a queued and a waiting message that own the last strong address); true when no message owns a strong address of its actor, or while the program owns one. Own small model of the lock and the drops (Reent.v)"
 ],
 "C51": [
  "proved",
  "completion of each call (other than polls of receive futures) regardless of other threads, and of all calls if none begins. Atomic actions are those of the model: the time to acquire the mutex is not modelled"
 ],
 "C52": [
  "proved",
  "every poll is given a fresh waker; wakers of the executor itself are not modelled"
 ],
 "C53": [
  "proved",
  "model of tasks in System.v on top of the channel model; hooks and handlers that panic and tasks that are dropped: see C56. No sender is blocked: unless the capacity is 0 (see C16)"
 ],
 "C54": [
  "proved",
  "same model of tasks as C53; stop_all assumes that nobody but the tasks makes receive futures, otherwise another receive future of the mailbox can take its message"
 ],
 "C55": [
  "proved",
  "same model of tasks as C53; only the tasks receive messages; unicast calls, capacity not 0 (broadcasts may stay blocked, see C18, and a send into a mailbox of capacity 0 may, see C16); callers are woken and one poll away from their answer, their executors are not modelled"
 ],
 "C56": [
  "proved",
  "same model of tasks as C53 with SCancel: a panic unwinds the task from the await point at which it happens; mutex poisoning cannot arise there (no lock is held at an await point). Callers: unicast calls, capacity not 0, as in C55"
 ],
 "C57": [
  "proved",
  "model in Span.v on top of the channel model; spans of xtra are all recorded or all filtered out; when spans are closed and which fields they record is not modelled"
 ],
 "C58": [
  "partial",
  "for the news of a broadcast only if no mailbox has two receive futures at a time: otherwise one can take the broadcast before the other, which then returns Pending (C58_shared_mailbox_refuted); the final poll keeps the order only if no message is sent between it and the drop (C58_final_poll_race_refuted)"
 ],
 "C59": [
  "proved",
  "same model of tasks as C53; cancelled actors count as stopped; stop_all is a broadcast of another kind (C21, C54). That every mailbox is run by an actor that has not stopped is needed for the callers: C59_gone_actor_blocks (see C18, of which this is an instance)"
 ],
 "C60": [
  "proved",
  "same model of tasks as C53; a join handle made after the last strong address was dropped may return while actors still run (C34), hence the exception"
 ]
}