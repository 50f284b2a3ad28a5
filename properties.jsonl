{"id": "C01", "title": "A message is handled at most once", "statement": "A message passed to `Address::send` is returned by at most one `Mailbox::next` future and is handed to at most one handler invocation, whatever mailboxes are cloned, futures dropped or messages requeued.", "quantifier": "every capacity, every sequence of API calls on one mailbox's addresses, mailboxes and futures, and every interleaving of the atomic steps of those calls", "why_tests_cant": "A duplicate would need one particular interleaving of delivery, cancellation and requeueing; tests sample a few schedules.", "anchors": ["xtra/src/chan.rs: Chan::try_send_to_one, Chan::try_recv, Chan::requeue_message", "xtra/src/recv_future.rs: Waiting::drop"]}
{"id": "C02", "title": "An accepted message is never silently lost while a mailbox is alive", "statement": "Once a send has been accepted (the detached send future resolved, or a receiver was handed the message) the message is, at every later instant, either still queued, in flight to a live receive future, held by the user as a received message, being handled, finished, or dropped for one of a closed list of reasons: the user dropped the received message or its dispatch future, every mailbox was dropped, every reference to the channel was dropped, or a receive future was being dropped by another thread at that very moment (see C04).", "quantifier": "every capacity, every sequence of API calls on one mailbox's addresses, mailboxes and futures, and every interleaving of the atomic steps of those calls", "why_tests_cant": "Loss would show only on schedules where delivery races with cancellation or disconnection.", "anchors": ["xtra/src/chan.rs: Chan::try_send_to_one, Inner::try_fulfill_receiver, Chan::requeue_message, Chan::shutdown_waiting_senders", "xtra/src/recv_future.rs: Waiting::drop"]}
{"id": "C03", "title": "A failed or cancelled send is never delivered", "statement": "If a send future resolves to `Err(Disconnected)`, or is dropped before it was accepted, then its message is never returned by a receive future and never handled, at any later time.", "quantifier": "every capacity, every sequence of API calls on one mailbox's addresses, mailboxes and futures, and every interleaving of the atomic steps of those calls", "why_tests_cant": "The claim is about all continuations of a history.", "anchors": ["xtra/src/send_future.rs: Sending::poll", "xtra/src/chan/waiting_sender.rs: Handle::take_message, WaitingSender"]}
{"id": "C04", "title": "Dropping a receive future loses no message", "statement": "`Mailbox::next` futures are cancellation-safe: whichever point a receive future is dropped at, a message already assigned to it is put back and remains receivable while a mailbox is alive.", "quantifier": "every capacity, every sequence of API calls on one mailbox's addresses, mailboxes and futures, and every interleaving of the atomic steps of those calls; in particular every point at which the receive future is dropped", "why_tests_cant": "A timing window of a few instructions between two destructors cannot be hit reliably by tests.", "anchors": ["xtra/src/recv_future.rs: ReceiveFuture docs, Waiting::drop", "xtra/src/chan/waiting_receiver.rs: WaitingReceiver::cancel", "xtra/src/chan.rs: Chan::requeue_message"]}
{"id": "C05", "title": "A broadcast reaches every mailbox exactly once", "statement": "When a broadcast is accepted, every mailbox (clone) alive at that moment has exactly one copy: each such mailbox either still holds it, or one of its receive futures returned it exactly once, or all handles on that mailbox have been dropped. No mailbox receives it twice.", "quantifier": "every capacity, every sequence of API calls on one mailbox's addresses, mailboxes and futures, and every interleaving of the atomic steps of those calls", "why_tests_cant": "Quantifies over any number of clones and any pattern of lagging receivers.", "anchors": ["xtra/src/chan.rs: Inner::send_broadcast, Inner::pop_broadcast", "xtra/src/mailbox.rs: Mailbox::clone"]}
{"id": "C06", "title": "A broadcast is not seen by mailboxes created later", "statement": "A mailbox cloned after a broadcast was accepted never receives that broadcast.", "quantifier": "every capacity, every sequence of API calls on one mailbox's addresses, mailboxes and futures, and every interleaving of the atomic steps of those calls", "why_tests_cant": "Universal over histories.", "anchors": ["xtra/src/chan.rs: Chan::new_broadcast_mailbox, Inner::send_broadcast"]}
{"id": "C07", "title": "A receive takes a highest-priority message; unicast wins ties", "statement": "When a fresh `next()` future completes immediately with a message, no other queued unicast message and no broadcast queued for that mailbox has a strictly higher priority, and a broadcast is returned only if it is strictly higher than every queued unicast message.", "quantifier": "all mailbox contents (any number of messages, any priorities) and all histories leading to them", "why_tests_cant": "Depends on a binary heap of unbounded size being correct for all shapes.", "anchors": ["xtra/src/chan.rs: Chan::try_recv, Inner::pop_unicast, Inner::pop_broadcast", "xtra/src/chan/priority.rs: Priority, ByPriority"]}
{"id": "C08", "title": "stop_all outranks every queued message", "statement": "After `Context::stop_all` took effect (some strong address existed), the next fresh receive on every live mailbox that has not yet consumed the stop returns the stop signal, no matter how many messages of whatever priority are queued and even if the mailbox is full.", "quantifier": "all mailbox contents, capacities, priorities, numbers of mailboxes", "why_tests_cant": "All queue contents and priorities up to the u32 maximum.", "anchors": ["xtra/src/context.rs: Context::stop_all", "xtra/src/chan.rs: Chan::shutdown_all_receivers", "xtra/src/envelope.rs: Shutdown"]}
{"id": "C09", "title": "A mailbox drains in priority order", "statement": "With no further sends, successive receives on a mailbox return every queued message exactly once in non-increasing priority order.", "quantifier": "all queue contents and sizes", "why_tests_cant": "Unbounded queue size; needs the heap invariant.", "anchors": ["xtra/src/chan.rs: Chan::try_recv"]}
{"id": "C10", "title": "Default-priority messages are handled in send order", "statement": "Messages sent with the default priority are handled in the order in which they were sent (documented as a special property of the default-priority mailbox).", "quantifier": "all numbers of messages", "why_tests_cant": "Order is an emergent property of the queue's data structure; small tests pass.", "anchors": ["xtra/src/address.rs: Address docs (Default priority)", "xtra/src/chan.rs: Inner::unicast_queue"]}
{"id": "C11", "title": "Blocked senders are admitted by priority, and first-come first-served among equals", "statement": "When space appears in a full mailbox the admitted send is one of highest priority among the blocked, not cancelled ones; among blocked sends of equal priority the one that has waited longest is admitted first.", "quantifier": "any number of blocked senders, any priorities, any pattern of cancelled sends", "why_tests_cant": "Unbounded number of waiters.", "anchors": ["xtra/src/chan.rs: find_remove_highest_priority, Inner::try_take_waiting_unicast_message"]}
{"id": "C12", "title": "The unicast queue never exceeds the capacity", "statement": "In a mailbox created with `Mailbox::bounded(n)`, at no instant are more than n unicast messages queued.", "quantifier": "every capacity, every sequence of API calls on one mailbox's addresses, mailboxes and futures, and every interleaving of the atomic steps of those calls", "why_tests_cant": "Every history.", "anchors": ["xtra/src/chan.rs: Inner::is_unicast_full, Chan::try_send_to_one, Chan::requeue_message"]}
{"id": "C13", "title": "Backpressure decision", "statement": "A unicast send blocks exactly when no receiver is idle and the unicast queue holds at least `capacity` messages; a broadcast blocks exactly when the broadcast backlog is at least `capacity`; sends into an unbounded mailbox never block.", "quantifier": "all reachable channel states", "why_tests_cant": "All states.", "anchors": ["xtra/src/chan.rs: Chan::try_send_to_one, Chan::try_send_to_all"]}
{"id": "C14", "title": "A unicast send stays blocked only while the mailbox is full", "statement": "Whenever a unicast send is blocked (pending, not cancelled), the unicast queue holds at least `capacity` messages: freeing a slot always admits a blocked sender.", "quantifier": "every capacity, every sequence of API calls on one mailbox's addresses, mailboxes and futures, and every interleaving of the atomic steps of those calls", "why_tests_cant": "A missed hand-over would show only for particular sequences of cancellations and receives.", "anchors": ["xtra/src/chan.rs: Inner::pop_unicast, Inner::try_take_waiting_unicast_message"]}
{"id": "C15", "title": "No receiver idles while its mailbox has a message", "statement": "Whenever a receive future is waiting and has not been notified, the shared unicast queue is empty and the broadcast queue of its mailbox is empty.", "quantifier": "every capacity, every sequence of API calls on one mailbox's addresses, mailboxes and futures, and every interleaving of the atomic steps of those calls", "why_tests_cant": "Missed-notification bugs are schedule dependent.", "anchors": ["xtra/src/chan.rs: Chan::try_recv, Inner::try_fulfill_receiver, Inner::send_broadcast"]}
{"id": "C16", "title": "No stand-off between a blocked sender and an idle receiver", "statement": "There is never a blocked unicast sender and an un-notified waiting receiver at the same time, for any capacity including 0.", "quantifier": "every capacity, every sequence of API calls on one mailbox's addresses, mailboxes and futures, and every interleaving of the atomic steps of those calls", "why_tests_cant": "Needs all orders in which sender and receiver arrive.", "anchors": ["xtra/src/chan.rs: Chan::try_recv, Chan::try_send_to_one", "xtra/examples/backpressure.rs: mailbox_capacity = Some(0)"]}
{"id": "C17", "title": "Broadcast backlog bound", "statement": "No live mailbox ever holds more than `capacity` ordinary broadcasts that it has not yet received; stop signals are the only broadcasts that may exceed the bound.", "quantifier": "every capacity, every sequence of API calls on one mailbox's addresses, mailboxes and futures, and every interleaving of the atomic steps of those calls", "why_tests_cant": "Any number of mailboxes and lagging patterns.", "anchors": ["xtra/src/chan.rs: Inner::is_broadcast_full, Inner::pop_broadcast, Inner::longest_broadcast_queue"]}
{"id": "C18", "title": "Broadcasts wait only for mailboxes that still exist", "statement": "A broadcast is blocked only while some live mailbox has a full broadcast backlog (backpressure waits for the slowest actor).", "quantifier": "every capacity, every sequence of API calls on one mailbox's addresses, mailboxes and futures, and every interleaving of the atomic steps of those calls", "why_tests_cant": "Depends on drop order of mailbox clones.", "anchors": ["xtra/src/address.rs: Address docs (Broadcast)", "xtra/src/chan.rs: Inner::broadcast_tail, Inner::pop_broadcast"]}
{"id": "C19", "title": "len() is queue length plus broadcast backlog", "statement": "`Address::len` is the number of queued unicast messages plus a number that is at least the largest number of unreceived broadcasts of any live mailbox, and equals it as long as no mailbox with unreceived broadcasts was dropped.", "quantifier": "every capacity, every sequence of API calls on one mailbox's addresses, mailboxes and futures, and every interleaving of the atomic steps of those calls", "why_tests_cant": "Every history.", "anchors": ["xtra/src/chan.rs: Chan::len"]}
{"id": "C20", "title": "Strong address count is exact", "statement": "At every instant the number of strong addresses reported (Debug `addresses`) equals the number of live strong addresses and strong handles inside not-yet-sent send futures and calls in progress; it never underflows.", "quantifier": "every capacity, every sequence of API calls on one mailbox's addresses, mailboxes and futures, and every interleaving of the atomic steps of those calls", "why_tests_cant": "Every history and interleaving.", "anchors": ["xtra/src/chan/ptr.rs: Ptr::clone, Ptr::drop, TxStrong, TxEither", "xtra/src/chan.rs: Chan::on_sender_created, Chan::on_sender_dropped"]}
{"id": "C21", "title": "Mailbox count is exact", "statement": "At every instant the number of mailboxes reported (Debug `mailboxes`) equals the number of live mailboxes, receive futures, received messages and dispatches plus calls in progress; it never underflows.", "quantifier": "every capacity, every sequence of API calls on one mailbox's addresses, mailboxes and futures, and every interleaving of the atomic steps of those calls", "why_tests_cant": "Every history and interleaving.", "anchors": ["xtra/src/chan/ptr.rs: Rx", "xtra/src/chan.rs: Chan::on_receiver_created, Chan::on_receiver_dropped"]}
{"id": "C22", "title": "Disconnection is permanent", "statement": "Once `is_connected()` would be false it is false forever, on every address: no clone, upgrade, conversion or receive can reconnect a channel.", "quantifier": "every capacity, every sequence of API calls on one mailbox's addresses, mailboxes and futures, and every interleaving of the atomic steps of those calls", "why_tests_cant": "All continuations.", "anchors": ["xtra/src/chan.rs: Chan::is_connected", "xtra/src/chan/ptr.rs: TxStrong::try_new"]}
{"id": "C23", "title": "Upgrade succeeds exactly while a strong address exists", "statement": "`WeakAddress::try_upgrade` returns Some exactly if at that instant at least one strong address (or strong pending handle) exists, and never revives a channel whose last strong address is gone. Weak addresses never keep an actor alive.", "quantifier": "every capacity, every sequence of API calls on one mailbox's addresses, mailboxes and futures, and every interleaving of the atomic steps of those calls", "why_tests_cant": "All races of upgrade and drop.", "anchors": ["xtra/src/chan/ptr.rs: TxStrong::try_new", "xtra/src/address.rs: WeakAddress::try_upgrade"]}
{"id": "C24", "title": "Sending to a disconnected actor fails cleanly", "statement": "If the channel is disconnected when a send or broadcast future is first polled, the poll resolves to `Err(Disconnected)`, nothing is queued and no receiver is notified; an error `Disconnected` is returned only if the channel is disconnected.", "quantifier": "every capacity, every sequence of API calls on one mailbox's addresses, mailboxes and futures, and every interleaving of the atomic steps of those calls", "why_tests_cant": "Every state.", "anchors": ["xtra/src/chan.rs: Chan::try_send_to_one, Chan::try_send_to_all", "xtra/src/send_future.rs: Sending::poll"]}
{"id": "C25", "title": "Dropping the last strong address stops every idle receiver", "statement": "When the last strong address is dropped, every waiting receive future is resolved: in every interleaving, once no call is in progress, no receive future is left waiting un-notified.", "quantifier": "every capacity, every sequence of API calls on one mailbox's addresses, mailboxes and futures, and every interleaving of the atomic steps of those calls", "why_tests_cant": "The race between registering a receiver and dropping the last address is invisible to tests.", "anchors": ["xtra/src/chan.rs: Chan::on_sender_dropped, Chan::shutdown_waiting_receivers, Chan::try_recv"]}
{"id": "C26", "title": "Everything sent is drained before the actor shuts down", "statement": "A receive returns the end-of-life shutdown only when the unicast queue and that mailbox's broadcast queue are empty and (capacity >= 1) no unicast send is blocked: messages sent before the last strong address was dropped are handled first.", "quantifier": "every capacity, every sequence of API calls on one mailbox's addresses, mailboxes and futures, and every interleaving of the atomic steps of those calls", "why_tests_cant": "All queue contents and blocked-sender patterns.", "anchors": ["xtra/src/chan.rs: Chan::try_recv, Inner::pop_unicast"]}
{"id": "C27", "title": "Dropping the last mailbox resolves every send", "statement": "When the last mailbox of a channel is dropped, every blocked send resolves to `Err(Disconnected)`, and every send whose message was queued but not handled resolves to `Err(Interrupted)`: no sender waits forever.", "quantifier": "every capacity, every sequence of API calls on one mailbox's addresses, mailboxes and futures, and every interleaving of the atomic steps of those calls", "why_tests_cant": "The connectivity check and the enqueueing are separate steps; the race needs a specific schedule.", "anchors": ["xtra/src/chan.rs: Chan::on_receiver_dropped, Chan::shutdown_waiting_senders, Chan::try_send_to_one"]}
{"id": "C28", "title": "A send resolves to its own handler's return value", "statement": "If a send future (or the receiver of a detached send) resolves to `Ok(v)` then the handler invoked for exactly that message completed with v; no value is delivered twice or to another sender.", "quantifier": "every capacity, every sequence of API calls on one mailbox's addresses, mailboxes and futures, and every interleaving of the atomic steps of those calls", "why_tests_cant": "Any number of concurrent requests.", "anchors": ["xtra/src/envelope.rs: ReturningEnvelope::handle", "xtra/src/send_future.rs: Receiver::poll"]}
{"id": "C29", "title": "A consumed message always answers its sender", "statement": "As soon as a message has been handled to completion or dropped (and no call is in progress) the sender's reply future is resolvable: the value, or `Err(Interrupted)`; `Interrupted` is reported only if the message was dropped.", "quantifier": "every capacity, every sequence of API calls on one mailbox's addresses, mailboxes and futures, and every interleaving of the atomic steps of those calls", "why_tests_cant": "Every path on which a message can be dropped.", "anchors": ["xtra/src/envelope.rs: ReturningEnvelope", "xtra/src/send_future.rs: Receiver"]}
{"id": "C30", "title": "Detached sends never report Interrupted", "statement": "Polling a detached send future yields Pending, Ok(receiver) or Err(Disconnected), never Err(Interrupted); a broadcast future likewise.", "quantifier": "every capacity, every sequence of API calls on one mailbox's addresses, mailboxes and futures, and every interleaving of the atomic steps of those calls", "why_tests_cant": "Every history.", "anchors": ["xtra/src/lib.rs: Error::Interrupted docs", "xtra/src/send_future.rs: SendFuture<_, ResolveToReceiver>::poll"]}
{"id": "C31", "title": "No lost wake-up for receivers", "statement": "If the last poll of a receive future returned Pending and the future is no longer merely waiting (it was assigned a message, a broadcast notice or a shutdown), then the waker of that last poll has been woken.", "quantifier": "every capacity, every sequence of API calls on one mailbox's addresses, mailboxes and futures, and every interleaving of the atomic steps of those calls", "why_tests_cant": "Lost wake-ups are pure scheduling bugs.", "anchors": ["xtra/src/chan/waiting_receiver.rs: Handle, WaitingReceiver::poll", "xtra/src/recv_future.rs: Receiving::poll"]}
{"id": "C32", "title": "No lost wake-up for senders", "statement": "If the last poll of a send future (or detached reply receiver) returned Pending and polling it now would make progress (accepted, disconnected, reply available or interrupted), then the waker of that last poll has been woken.", "quantifier": "every capacity, every sequence of API calls on one mailbox's addresses, mailboxes and futures, and every interleaving of the atomic steps of those calls", "why_tests_cant": "Lost wake-ups are pure scheduling bugs.", "anchors": ["xtra/src/chan/waiting_sender.rs: Handle::take_message, Handle::drop, WaitingSender::poll", "xtra/src/send_future.rs"]}
{"id": "C33", "title": "join() does not miss the end of the actor", "statement": "A join handle resolves only if the channel is disconnected, and once the last mailbox is gone (and no call is in progress) every join handle is resolved and its last waker woken, even if it was created concurrently with the disconnection.", "quantifier": "every capacity, every sequence of API calls on one mailbox's addresses, mailboxes and futures, and every interleaving of the atomic steps of those calls", "why_tests_cant": "The listener is registered before the check to avoid a race; only all schedules show that this suffices.", "anchors": ["xtra/src/chan.rs: Chan::disconnect_listener, Chan::shutdown_waiting_senders", "xtra/src/address.rs: ActorJoinHandle"]}
{"id": "C34", "title": "join() resolves when the address becomes disconnected", "statement": "`Address::join` waits until the address is disconnected: whenever `is_connected()` is false (and no call is in progress), every join handle of the address is resolved.", "quantifier": "every capacity, every sequence of API calls on one mailbox's addresses, mailboxes and futures, and every interleaving of the atomic steps of those calls", "why_tests_cant": "Needs the history in which the last strong address goes away while the actor still runs.", "anchors": ["xtra/src/address.rs: Address::join", "xtra/src/chan.rs: Chan::shutdown_waiting_receivers, Chan::disconnect_listener"]}
{"id": "C35", "title": "A scoped task runs only while its actor is connected", "statement": "A scoped task yields Some(v) exactly when the inner future completes with v at a poll where the actor's join handle is still pending; it yields None as soon as it is polled after the actor stopped, without polling the inner future.", "quantifier": "all inner futures (any sequence of poll results) and all poll schedules", "why_tests_cant": "Arbitrary inner future behaviours.", "anchors": ["xtra/src/scoped_task.rs: ScopedTask::poll"]}
{"id": "C36", "title": "Address equality and hashing are coherent", "statement": "Address equality (across strong, weak and either addresses) holds iff both refer to the same mailbox channel and both are strong or both weak; it is an equivalence; equal addresses (and message channels) feed identical data to the hasher and different ones different data.", "quantifier": "all pairs and triples of addresses of all reference-count kinds", "why_tests_cant": "All combinations of kinds and channels.", "anchors": ["xtra/src/address.rs: PartialEq, Hash", "xtra/src/message_channel.rs: PartialEq, hash"]}
{"id": "C37", "title": "Address ordering agrees with equality", "statement": "`Ord::cmp`, `PartialOrd::partial_cmp` and `==` on addresses agree: cmp returns Equal iff the addresses are equal and partial_cmp = Some(cmp), so that addresses can be keys of ordered maps.", "quantifier": "all pairs of addresses of one type", "why_tests_cant": "All combinations of kinds and channels.", "anchors": ["xtra/src/address.rs: PartialOrd, Ord"]}
{"id": "C38", "title": "Actor life cycle of xtra::run", "statement": "`run` calls `started` once, first; if it fails nothing else is called; otherwise messages are dispatched one after another, each to completion before the next is taken, until the first dispatch that asks to stop; then `stopped` is called exactly once and nothing is dispatched afterwards.", "quantifier": "all sequences of received messages and handler outcomes", "why_tests_cant": "Unbounded event loops.", "anchors": ["xtra/src/lib.rs: run, yield_once"]}
{"id": "C39", "title": "A stop request received while selecting is honoured", "statement": "If a message handled inside `xtra::select` asks the actor to stop (stop_self, or the stop_all signal), select reports it to the caller as the actor having stopped.", "quantifier": "all futures, message sequences and handler outcomes", "why_tests_cant": "Needs the future to finish exactly when a stop is queued.", "anchors": ["xtra/src/lib.rs: select"]}
{"id": "C40", "title": "select and join never drop a message and join always completes its future", "statement": "Every message taken from the mailbox inside select/join is dispatched exactly once, in the order taken; join always returns the future's own result, polls the future only until it completes, and handles no message after a stop or after the future's completion except at most one that was already available.", "quantifier": "all futures (any number of pending polls), all message arrival patterns, all handler outcomes", "why_tests_cant": "Unbounded interleavings of future progress and messages.", "anchors": ["xtra/src/lib.rs: select, join"]}
{"id": "C41", "title": "Internal invariants never panic", "statement": "None of the library's internal unwrap/expect/unreachable sites can fire, in any history: queue pops after peeks, requeue on drop without a channel, message type mismatch on failed notification, taking a broadcast envelope mutably.", "quantifier": "every capacity, every sequence of API calls on one mailbox's addresses, mailboxes and futures, and every interleaving of the atomic steps of those calls", "why_tests_cant": "Panics inside the lock would poison the mailbox; absence needs all schedules.", "anchors": ["xtra/src/chan.rs: Chan::try_recv, Chan::try_send_to_all", "xtra/src/recv_future.rs: Waiting::poll, Waiting::drop", "xtra/src/chan/waiting_receiver.rs: notify_new_message, WaitingReceiver::poll (TODO branch)"]}
{"id": "C42", "title": "Message priority is fixed at the first poll", "statement": "The priority a message is queued with is the last one set with `priority` before the first poll (0 if none); setting it later panics and never changes a queued message.", "quantifier": "every capacity, every sequence of API calls on one mailbox's addresses, mailboxes and futures, and every interleaving of the atomic steps of those calls", "why_tests_cant": "Every history.", "anchors": ["xtra/src/send_future.rs: SendFuture::priority, SetPriority"]}
{"id": "C43", "title": "stop_all stops every actor", "statement": "After `Context::stop_all` each actor on the address shuts down as its next action after its current message (documented guarantee), whatever is queued and whichever addresses exist.", "quantifier": "every capacity, every sequence of API calls on one mailbox's addresses, mailboxes and futures, and every interleaving of the atomic steps of those calls", "why_tests_cant": "Depends on which addresses are still alive when the handler runs.", "anchors": ["xtra/src/context.rs: Context::stop_all"]}
{"id": "C44", "title": "stop_self stops only the calling actor", "statement": "A handler that calls `stop_self` makes exactly its own dispatch report Break; mailbox contents, other mailboxes and counts of other actors are unaffected.", "quantifier": "every capacity, every sequence of API calls on one mailbox's addresses, mailboxes and futures, and every interleaving of the atomic steps of those calls", "why_tests_cant": "Any number of actors.", "anchors": ["xtra/src/context.rs: Context::stop_self", "xtra/src/envelope.rs: ReturningEnvelope::handle, BroadcastEnvelopeConcrete::handle"]}
{"id": "C45", "title": "Cancelling a blocked send affects nobody else", "statement": "Dropping a blocked send future removes exactly its own message: no other queued, blocked or delivered message, count or notification changes, and a later free slot goes to another blocked sender.", "quantifier": "every capacity, every sequence of API calls on one mailbox's addresses, mailboxes and futures, and every interleaving of the atomic steps of those calls", "why_tests_cant": "Any number of blocked senders.", "anchors": ["xtra/src/chan/waiting_sender.rs", "xtra/src/chan.rs: find_remove_highest_priority"]}
{"id": "C46", "title": "Capacity applies separately to default and priority messages", "statement": "The documentation states that the default-priority, the priority and the broadcast mailbox each have their own capacity: a priority message does not wait because default-priority messages fill the mailbox.", "quantifier": "all reachable states", "why_tests_cant": "Documentation claim over all states.", "anchors": ["xtra/src/address.rs: Address docs (Mailboxes)", "xtra/src/chan.rs: Inner::is_unicast_full"]}
{"id": "C47", "title": "Address conversions preserve identity and strength", "statement": "clone, downgrade, as_either, upgrade and MessageChannel construction yield handles to the same channel, with strength preserved by clone/as_either, weak after downgrade, strong after upgrade.", "quantifier": "all chains of conversions", "why_tests_cant": "Arbitrary chains.", "anchors": ["xtra/src/address.rs", "xtra/src/chan/ptr.rs", "xtra/src/message_channel.rs"]}
{"id": "C48", "title": "A sink sends one message at a time, in order", "statement": "An address sink starts sending the next item only after the previous send has completed (handled); items are handled in the order they were fed.", "quantifier": "all item sequences and readiness patterns", "why_tests_cant": "Unbounded streams.", "anchors": ["xtra/src/address.rs: Address::into_sink", "xtra/src/message_channel.rs: MessageChannel::into_sink"]}
{"id": "C49", "title": "Dropping a queued message never deadlocks the channel", "statement": "Dropping messages while the channel is being shut down never blocks forever, even if the messages own addresses of the same actor.", "quantifier": "all queue contents, including messages that own strong addresses of the receiving actor", "why_tests_cant": "Requires a message owning the last strong address of its own mailbox.", "anchors": ["xtra/src/chan.rs: Chan::shutdown_waiting_senders, Chan::on_sender_dropped"]}
{"id": "C50", "title": "Channel teardown answers every sender", "statement": "When the last reference of any kind to the channel is gone, every still unanswered sender is resolved.", "quantifier": "every capacity, every sequence of API calls on one mailbox's addresses, mailboxes and futures, and every interleaving of the atomic steps of those calls", "why_tests_cant": "All teardown orders.", "anchors": ["xtra/src/chan.rs: Chan (drop glue)", "xtra/src/chan/waiting_sender.rs: Handle::drop"]}
{"id": "C51", "title": "Every call completes", "statement": "Whatever other threads do, each call other than a poll of a receive future is complete after finitely many of its own actions; and if no new call begins, all calls in progress, including polls of receive futures, complete in every schedule.", "quantifier": "every capacity, every sequence of API calls on one mailbox's addresses, mailboxes and futures, and every interleaving of the atomic steps of those calls", "why_tests_cant": "Unbounded interleavings; a poll of a receive future retries when other receive futures of the same mailbox take the broadcast that it was woken for.", "anchors": ["xtra/src/chan.rs", "xtra/src/recv_future.rs: ReceiveFuture::poll", "xtra/src/send_future.rs"]}
{"id": "C52", "title": "No spurious wake-ups", "statement": "Every waker passed to a poll is woken at most once, and only after what the polled future waits for has happened: the receive future was notified, the send admitted, rejected or answered, the reply sent or given up, the join handle can resolve.", "quantifier": "every capacity, every sequence of API calls on one mailbox's addresses, mailboxes and futures, and every interleaving of the atomic steps of those calls", "why_tests_cant": "All interleavings.", "anchors": ["xtra/src/chan/waiting_sender.rs", "xtra/src/chan/waiting_receiver.rs", "xtra/src/send_future.rs", "xtra/src/address.rs: ActorJoinHandle"]}
{"id": "C53", "title": "Actors on executors come to rest with no message left", "statement": "Actors that run the event loop as tasks of an executor, each polled only when new or woken: if nothing more is called from outside and handlers return, then in every schedule of tasks and threads, after finitely many steps every actor has stopped or waits while nothing is queued for it and no sender is blocked; if only actors receive messages, none of them panics or is dropped and one of them is left, every accepted message was handled; and if no strong address is left, all actors have stopped.", "quantifier": "every capacity, every sequence of API calls on one mailbox's addresses, mailboxes and futures, and every interleaving of the atomic steps of those calls", "why_tests_cant": "All interleavings of any number of tasks, senders and other calls, of any length.", "anchors": ["xtra/src/lib.rs: run, yield_once", "xtra/src/mailbox.rs: Mailbox::next", "xtra/src/dispatch_future.rs", "xtra/src/recv_future.rs", "xtra/src/chan.rs"]}
{"id": "C54", "title": "Actors on executors stop exactly when told to", "statement": "An actor whose receive future yielded a message to stop (the end-of-life signal, or the broadcast of stop_all), or whose running handler calls Context::stop_self, stops: whatever is called meanwhile, once no more is called from outside and the handlers return, its task completes after finitely many steps under every schedule. After Context::stop_all, if a strong address is left and only the actors receive messages, every actor that exists then stops in this sense, and the stop is the next thing it receives: a receive future that holds no message at the atomic step of stop_all never gives it a message to handle. An actor whose started hook fails never receives anything and its task completes; a mailbox is dropped exactly when its task completes. Conversely an actor stops only if it panicked or was dropped, its started hook failed, one of its own handlers called stop_self, or its own receive future yielded a message to stop; and in the last case some running handler called stop_all or no strong address was left.", "quantifier": "every capacity, every sequence of API calls on one mailbox's addresses, mailboxes and futures, and every interleaving of the atomic steps of those calls", "why_tests_cant": "all systems of tasks and calls, all schedules, all later calls", "anchors": ["xtra/src/lib.rs: run, yield_once", "xtra/src/context.rs: Context::stop_self, Context::stop_all", "xtra/src/dispatch_future.rs", "xtra/src/chan.rs: shutdown_all_receivers"]}
{"id": "C55", "title": "Calls to actors on executors are answered", "statement": "If nobody calls stop_self or stop_all and a strong address is left, an actor that has started keeps working, whatever else was called before and whichever other actors panic: once no more is called from outside and the handlers return, every schedule leads after finitely many steps to a state in which it still works and, if no actor panicked or was dropped, every message that was accepted has been handled, and every caller whose send future (or detached receiver) was last seen pending has been woken and gets from its next poll exactly what the handler of its message returned. More generally, all callers are answered in this sense if no actor panicked or was dropped and some actor is left when everything has come to rest.", "quantifier": "every capacity, every sequence of API calls on one mailbox's addresses, mailboxes and futures, and every interleaving of the atomic steps of those calls", "why_tests_cant": "all systems of tasks and calls, all schedules, all earlier calls", "anchors": ["xtra/src/lib.rs: run, yield_once", "xtra/src/send_future.rs", "xtra/src/address.rs: Address::send", "xtra/src/chan.rs: Chan::try_recv"]}
{"id": "C56", "title": "Actors that panic or are dropped", "statement": "An actor whose hook or handler panics, or whose task is dropped at an await point, is gone: its mailbox is dropped and its task completes. If only actors receive messages and some actor is left when everything has come to rest, every accepted message was handled, or its envelope was lost with such an actor; at most one message is lost per actor that panicked or was dropped. No caller waits for ever: if some actor is left, every caller last seen pending has been woken and gets from its next poll what the handler of its message returned, or Error::Interrupted if the message was lost.", "quantifier": "every capacity, every sequence of API calls on one mailbox's addresses, mailboxes and futures, and every interleaving of the atomic steps of those calls", "why_tests_cant": "all systems of tasks and calls, all schedules, any number of panics at any await points", "anchors": ["xtra/src/lib.rs: run, yield_once", "xtra/src/dispatch_future.rs", "xtra/src/recv_future.rs: Drop", "xtra/src/envelope.rs", "xtra/src/send_future.rs"]}
{"id": "C57", "title": "Tracing spans follow messages", "statement": "With the instrumentation feature: the assertion in start_span never fails; an accepted message has exactly one request span, a child of the span that was current at the first poll of its send future, with a child span for the time it waits; every handler invoked runs in a span of its own, a child of the request span of its message; if the subscriber filters out the spans of xtra, the handler runs in the span that was current at that first poll, or if there was none in the one current where the handler runs. The channel behaves as without the feature.", "quantifier": "every capacity, every sequence of API calls on one mailbox's addresses, mailboxes and futures, and every interleaving of the atomic steps of those calls", "why_tests_cant": "all interleavings, all choices of current spans", "anchors": ["xtra/src/instrumentation/tracing.rs", "xtra/src/envelope.rs: start_span, handle", "xtra/src/dispatch_future.rs: span, running", "xtra/src/chan.rs: try_send_to_one, try_send_to_all"]}
{"id": "C58", "title": "A receive future that was notified completes at its next poll", "statement": "A pending receive future to which the channel has sent a message, the news of a broadcast or a shutdown never returns Pending again: its next poll is over, with a result, after at most two atomic actions, whatever other threads do meanwhile. The first poll of a receive future completes in one action if there is something to receive. Dropping a receive future right after a poll that returned Pending moves no message.", "quantifier": "every capacity, every sequence of API calls on one mailbox's addresses, mailboxes and futures, and every interleaving of the atomic steps of those calls", "why_tests_cant": "all interleavings", "anchors": ["xtra/src/recv_future.rs: ReceiveFuture (\"guaranteed to complete in a single poll\"), Receiving::poll", "xtra/src/chan/waiting_receiver.rs: poll", "xtra/src/chan.rs: next_broadcast_message"]}
{"id": "C59", "title": "Broadcasts to actors on executors are handled by every actor, once", "statement": "Of every mailbox a broadcast is handled at most once, and only if the mailbox existed when it was sent. If only the actors receive messages, then however tasks and threads are scheduled, once everything has come to rest every actor that has not stopped has handled every broadcast to its mailbox exactly once; so a broadcast is handled by every actor that had not stopped when it was sent, unless the actor stops first. If the capacity is not 0 and every mailbox ever made is run by an actor that has not stopped, every caller that waits to broadcast has been woken by then, and its next poll returns Ok.", "quantifier": "every capacity, every sequence of API calls on one mailbox's addresses, mailboxes and futures, and every interleaving of the atomic steps of those calls", "why_tests_cant": "all interleavings", "anchors": ["xtra/src/address.rs: broadcast (\"Send a message to all actors on this address\")", "xtra/src/chan.rs: send_broadcast, next_broadcast_message", "xtra/src/lib.rs: run"]}
{"id": "C60", "title": "Join handles of actors on executors", "statement": "If only the actors receive messages and every mailbox is run by an actor, then after the last strong address was dropped, or a handler called stop_all, or all actors stopped in another way, however tasks and threads are scheduled, once everything has come to rest every join handle returns when it is polled, and those polled before were woken. They do not return before all actors have stopped, unless the last strong address was dropped; and a mailbox that no actor runs keeps them waiting.", "quantifier": "every capacity, every sequence of API calls on one mailbox's addresses, mailboxes and futures, and every interleaving of the atomic steps of those calls", "why_tests_cant": "all interleavings", "anchors": ["xtra/src/address.rs: Address::join, ActorJoinHandle", "xtra/src/chan.rs: disconnect_listener, shutdown_waiting_senders", "xtra/src/lib.rs: run"]}
