#!/usr/bin/env python3
# Regenerates /verif/properties.jsonl. One entry per semantic property of xtra.
import json
P=[]
def p(title, statement, quantifier, why, *anchors):
    P.append(dict(id="C%02d"%(len(P)+1), title=title, statement=statement, quantifier=quantifier,
                  why_tests_cant=why, anchors=list(anchors)))
SCHED="every capacity, every sequence of API calls on one mailbox's addresses, mailboxes and futures, and every interleaving of the atomic steps of those calls"
p("A message is handled at most once",
  "A message passed to `Address::send` is returned by at most one `Mailbox::next` future and is handed to at most one handler invocation, whatever mailboxes are cloned, futures dropped or messages requeued.",
  SCHED, "A duplicate would need one particular interleaving of delivery, cancellation and requeueing; tests sample a few schedules.",
  "xtra/src/chan.rs: Chan::try_send_to_one, Chan::try_recv, Chan::requeue_message","xtra/src/recv_future.rs: Waiting::drop")
p("An accepted message is never silently lost while a mailbox is alive",
  "Once a send has been accepted (the detached send future resolved, or a receiver was handed the message) the message is, at every later instant, either still queued, in flight to a live receive future, held by the user as a received message, being handled, finished, or dropped for one of a closed list of reasons: the user dropped the received message or its dispatch future, every mailbox was dropped, every reference to the channel was dropped, or a receive future was being dropped by another thread at that very moment (see C04).",
  SCHED, "Loss would show only on schedules where delivery races with cancellation or disconnection.",
  "xtra/src/chan.rs: Chan::try_send_to_one, Inner::try_fulfill_receiver, Chan::requeue_message, Chan::shutdown_waiting_senders","xtra/src/recv_future.rs: Waiting::drop")
p("A failed or cancelled send is never delivered",
  "If a send future resolves to `Err(Disconnected)`, or is dropped before it was accepted, then its message is never returned by a receive future and never handled, at any later time.",
  SCHED, "The claim is about all continuations of a history.",
  "xtra/src/send_future.rs: Sending::poll","xtra/src/chan/waiting_sender.rs: Handle::take_message, WaitingSender")
p("Dropping a receive future loses no message",
  "`Mailbox::next` futures are cancellation-safe: whichever point a receive future is dropped at, a message already assigned to it is put back and remains receivable while a mailbox is alive.",
  SCHED+"; in particular every point at which the receive future is dropped", "A timing window of a few instructions between two destructors cannot be hit reliably by tests.",
  "xtra/src/recv_future.rs: ReceiveFuture docs, Waiting::drop","xtra/src/chan/waiting_receiver.rs: WaitingReceiver::cancel","xtra/src/chan.rs: Chan::requeue_message")
p("A broadcast reaches every mailbox exactly once",
  "When a broadcast is accepted, every mailbox (clone) alive at that moment has exactly one copy: each such mailbox either still holds it, or one of its receive futures returned it exactly once, or all handles on that mailbox have been dropped. No mailbox receives it twice.",
  SCHED, "Quantifies over any number of clones and any pattern of lagging receivers.",
  "xtra/src/chan.rs: Inner::send_broadcast, Inner::pop_broadcast","xtra/src/mailbox.rs: Mailbox::clone")
p("A broadcast is not seen by mailboxes created later",
  "A mailbox cloned after a broadcast was accepted never receives that broadcast.",
  SCHED, "Universal over histories.",
  "xtra/src/chan.rs: Chan::new_broadcast_mailbox, Inner::send_broadcast")
p("A receive takes a highest-priority message; unicast wins ties",
  "When a fresh `next()` future completes immediately with a message, no other queued unicast message and no broadcast queued for that mailbox has a strictly higher priority, and a broadcast is returned only if it is strictly higher than every queued unicast message.",
  "all mailbox contents (any number of messages, any priorities) and all histories leading to them", "Depends on a binary heap of unbounded size being correct for all shapes.",
  "xtra/src/chan.rs: Chan::try_recv, Inner::pop_unicast, Inner::pop_broadcast","xtra/src/chan/priority.rs: Priority, ByPriority")
p("stop_all outranks every queued message",
  "After `Context::stop_all` took effect (some strong address existed), the next fresh receive on every live mailbox that has not yet consumed the stop returns the stop signal, no matter how many messages of whatever priority are queued and even if the mailbox is full.",
  "all mailbox contents, capacities, priorities, numbers of mailboxes", "All queue contents and priorities up to the u32 maximum.",
  "xtra/src/context.rs: Context::stop_all","xtra/src/chan.rs: Chan::shutdown_all_receivers","xtra/src/envelope.rs: Shutdown")
p("A mailbox drains in priority order",
  "With no further sends, successive receives on a mailbox return every queued message exactly once in non-increasing priority order.",
  "all queue contents and sizes", "Unbounded queue size; needs the heap invariant.",
  "xtra/src/chan.rs: Chan::try_recv")
p("Default-priority messages are handled in send order",
  "Messages sent with the default priority are handled in the order in which they were sent (documented as a special property of the default-priority mailbox).",
  "all numbers of messages", "Order is an emergent property of the queue's data structure; small tests pass.",
  "xtra/src/address.rs: Address docs (Default priority)","xtra/src/chan.rs: Inner::unicast_queue")
p("Blocked senders are admitted by priority, and first-come first-served among equals",
  "When space appears in a full mailbox the admitted send is one of highest priority among the blocked, not cancelled ones; among blocked sends of equal priority the one that has waited longest is admitted first.",
  "any number of blocked senders, any priorities, any pattern of cancelled sends", "Unbounded number of waiters.",
  "xtra/src/chan.rs: find_remove_highest_priority, Inner::try_take_waiting_unicast_message")
p("The unicast queue never exceeds the capacity",
  "In a mailbox created with `Mailbox::bounded(n)`, at no instant are more than n unicast messages queued.",
  SCHED, "Every history.",
  "xtra/src/chan.rs: Inner::is_unicast_full, Chan::try_send_to_one, Chan::requeue_message")
p("Backpressure decision",
  "A unicast send blocks exactly when no receiver is idle and the unicast queue holds at least `capacity` messages; a broadcast blocks exactly when the broadcast backlog is at least `capacity`; sends into an unbounded mailbox never block.",
  "all reachable channel states", "All states.",
  "xtra/src/chan.rs: Chan::try_send_to_one, Chan::try_send_to_all")
p("A unicast send stays blocked only while the mailbox is full",
  "Whenever a unicast send is blocked (pending, not cancelled), the unicast queue holds at least `capacity` messages: freeing a slot always admits a blocked sender.",
  SCHED, "A missed hand-over would show only for particular sequences of cancellations and receives.",
  "xtra/src/chan.rs: Inner::pop_unicast, Inner::try_take_waiting_unicast_message")
p("No receiver idles while its mailbox has a message",
  "Whenever a receive future is waiting and has not been notified, the shared unicast queue is empty and the broadcast queue of its mailbox is empty.",
  SCHED, "Missed-notification bugs are schedule dependent.",
  "xtra/src/chan.rs: Chan::try_recv, Inner::try_fulfill_receiver, Inner::send_broadcast")
p("No stand-off between a blocked sender and an idle receiver",
  "There is never a blocked unicast sender and an un-notified waiting receiver at the same time, for any capacity including 0.",
  SCHED, "Needs all orders in which sender and receiver arrive.",
  "xtra/src/chan.rs: Chan::try_recv, Chan::try_send_to_one","xtra/examples/backpressure.rs: mailbox_capacity = Some(0)")
p("Broadcast backlog bound",
  "No live mailbox ever holds more than `capacity` ordinary broadcasts that it has not yet received; stop signals are the only broadcasts that may exceed the bound.",
  SCHED, "Any number of mailboxes and lagging patterns.",
  "xtra/src/chan.rs: Inner::is_broadcast_full, Inner::pop_broadcast, Inner::longest_broadcast_queue")
p("Broadcasts wait only for mailboxes that still exist",
  "A broadcast is blocked only while some live mailbox has a full broadcast backlog (backpressure waits for the slowest actor).",
  SCHED, "Depends on drop order of mailbox clones.",
  "xtra/src/address.rs: Address docs (Broadcast)","xtra/src/chan.rs: Inner::broadcast_tail, Inner::pop_broadcast")
p("len() is queue length plus broadcast backlog",
  "`Address::len` is the number of queued unicast messages plus a number that is at least the largest number of unreceived broadcasts of any live mailbox, and equals it as long as no mailbox with unreceived broadcasts was dropped.",
  SCHED, "Every history.",
  "xtra/src/chan.rs: Chan::len")
p("Strong address count is exact",
  "At every instant the number of strong addresses reported (Debug `addresses`) equals the number of live strong addresses and strong handles inside not-yet-sent send futures and calls in progress; it never underflows.",
  SCHED, "Every history and interleaving.",
  "xtra/src/chan/ptr.rs: Ptr::clone, Ptr::drop, TxStrong, TxEither","xtra/src/chan.rs: Chan::on_sender_created, Chan::on_sender_dropped")
p("Mailbox count is exact",
  "At every instant the number of mailboxes reported (Debug `mailboxes`) equals the number of live mailboxes, receive futures, received messages and dispatches plus calls in progress; it never underflows.",
  SCHED, "Every history and interleaving.",
  "xtra/src/chan/ptr.rs: Rx","xtra/src/chan.rs: Chan::on_receiver_created, Chan::on_receiver_dropped")
p("Disconnection is permanent",
  "Once `is_connected()` would be false it is false forever, on every address: no clone, upgrade, conversion or receive can reconnect a channel.",
  SCHED, "All continuations.",
  "xtra/src/chan.rs: Chan::is_connected","xtra/src/chan/ptr.rs: TxStrong::try_new")
p("Upgrade succeeds exactly while a strong address exists",
  "`WeakAddress::try_upgrade` returns Some exactly if at that instant at least one strong address (or strong pending handle) exists, and never revives a channel whose last strong address is gone. Weak addresses never keep an actor alive.",
  SCHED, "All races of upgrade and drop.",
  "xtra/src/chan/ptr.rs: TxStrong::try_new","xtra/src/address.rs: WeakAddress::try_upgrade")
p("Sending to a disconnected actor fails cleanly",
  "If the channel is disconnected when a send or broadcast future is first polled, the poll resolves to `Err(Disconnected)`, nothing is queued and no receiver is notified; an error `Disconnected` is returned only if the channel is disconnected.",
  SCHED, "Every state.",
  "xtra/src/chan.rs: Chan::try_send_to_one, Chan::try_send_to_all","xtra/src/send_future.rs: Sending::poll")
p("Dropping the last strong address stops every idle receiver",
  "When the last strong address is dropped, every waiting receive future is resolved: in every interleaving, once no call is in progress, no receive future is left waiting un-notified.",
  SCHED, "The race between registering a receiver and dropping the last address is invisible to tests.",
  "xtra/src/chan.rs: Chan::on_sender_dropped, Chan::shutdown_waiting_receivers, Chan::try_recv")
p("Everything sent is drained before the actor shuts down",
  "A receive returns the end-of-life shutdown only when the unicast queue and that mailbox's broadcast queue are empty and (capacity >= 1) no unicast send is blocked: messages sent before the last strong address was dropped are handled first.",
  SCHED, "All queue contents and blocked-sender patterns.",
  "xtra/src/chan.rs: Chan::try_recv, Inner::pop_unicast")
p("Dropping the last mailbox resolves every send",
  "When the last mailbox of a channel is dropped, every blocked send resolves to `Err(Disconnected)`, and every send whose message was queued but not handled resolves to `Err(Interrupted)`: no sender waits forever.",
  SCHED, "The connectivity check and the enqueueing are separate steps; the race needs a specific schedule.",
  "xtra/src/chan.rs: Chan::on_receiver_dropped, Chan::shutdown_waiting_senders, Chan::try_send_to_one")
p("A send resolves to its own handler's return value",
  "If a send future (or the receiver of a detached send) resolves to `Ok(v)` then the handler invoked for exactly that message completed with v; no value is delivered twice or to another sender.",
  SCHED, "Any number of concurrent requests.",
  "xtra/src/envelope.rs: ReturningEnvelope::handle","xtra/src/send_future.rs: Receiver::poll")
p("A consumed message always answers its sender",
  "As soon as a message has been handled to completion or dropped (and no call is in progress) the sender's reply future is resolvable: the value, or `Err(Interrupted)`; `Interrupted` is reported only if the message was dropped.",
  SCHED, "Every path on which a message can be dropped.",
  "xtra/src/envelope.rs: ReturningEnvelope","xtra/src/send_future.rs: Receiver")
p("Detached sends never report Interrupted",
  "Polling a detached send future yields Pending, Ok(receiver) or Err(Disconnected), never Err(Interrupted); a broadcast future likewise.",
  SCHED, "Every history.",
  "xtra/src/lib.rs: Error::Interrupted docs","xtra/src/send_future.rs: SendFuture<_, ResolveToReceiver>::poll")
p("No lost wake-up for receivers",
  "If the last poll of a receive future returned Pending and the future is no longer merely waiting (it was assigned a message, a broadcast notice or a shutdown), then the waker of that last poll has been woken.",
  SCHED, "Lost wake-ups are pure scheduling bugs.",
  "xtra/src/chan/waiting_receiver.rs: Handle, WaitingReceiver::poll","xtra/src/recv_future.rs: Receiving::poll")
p("No lost wake-up for senders",
  "If the last poll of a send future (or detached reply receiver) returned Pending and polling it now would make progress (accepted, disconnected, reply available or interrupted), then the waker of that last poll has been woken.",
  SCHED, "Lost wake-ups are pure scheduling bugs.",
  "xtra/src/chan/waiting_sender.rs: Handle::take_message, Handle::drop, WaitingSender::poll","xtra/src/send_future.rs")
p("join() does not miss the end of the actor",
  "A join handle resolves only if the channel is disconnected, and once the last mailbox is gone (and no call is in progress) every join handle is resolved and its last waker woken, even if it was created concurrently with the disconnection.",
  SCHED, "The listener is registered before the check to avoid a race; only all schedules show that this suffices.",
  "xtra/src/chan.rs: Chan::disconnect_listener, Chan::shutdown_waiting_senders","xtra/src/address.rs: ActorJoinHandle")
p("join() resolves when the address becomes disconnected",
  "`Address::join` waits until the address is disconnected: whenever `is_connected()` is false (and no call is in progress), every join handle of the address is resolved.",
  SCHED, "Needs the history in which the last strong address goes away while the actor still runs.",
  "xtra/src/address.rs: Address::join","xtra/src/chan.rs: Chan::shutdown_waiting_receivers, Chan::disconnect_listener")
p("A scoped task runs only while its actor is connected",
  "A scoped task yields Some(v) exactly when the inner future completes with v at a poll where the actor's join handle is still pending; it yields None as soon as it is polled after the actor stopped, without polling the inner future.",
  "all inner futures (any sequence of poll results) and all poll schedules", "Arbitrary inner future behaviours.",
  "xtra/src/scoped_task.rs: ScopedTask::poll")
p("Address equality and hashing are coherent",
  "Address equality (across strong, weak and either addresses) holds iff both refer to the same mailbox channel and both are strong or both weak; it is an equivalence; equal addresses (and message channels) feed identical data to the hasher and different ones different data.",
  "all pairs and triples of addresses of all reference-count kinds", "All combinations of kinds and channels.",
  "xtra/src/address.rs: PartialEq, Hash","xtra/src/message_channel.rs: PartialEq, hash")
p("Address ordering agrees with equality",
  "`Ord::cmp`, `PartialOrd::partial_cmp` and `==` on addresses agree: cmp returns Equal iff the addresses are equal and partial_cmp = Some(cmp), so that addresses can be keys of ordered maps.",
  "all pairs of addresses of one type", "All combinations of kinds and channels.",
  "xtra/src/address.rs: PartialOrd, Ord")
p("Actor life cycle of xtra::run",
  "`run` calls `started` once, first; if it fails nothing else is called; otherwise messages are dispatched one after another, each to completion before the next is taken, until the first dispatch that asks to stop; then `stopped` is called exactly once and nothing is dispatched afterwards.",
  "all sequences of received messages and handler outcomes", "Unbounded event loops.",
  "xtra/src/lib.rs: run, yield_once")
p("A stop request received while selecting is honoured",
  "If a message handled inside `xtra::select` asks the actor to stop (stop_self, or the stop_all signal), select reports it to the caller as the actor having stopped.",
  "all futures, message sequences and handler outcomes", "Needs the future to finish exactly when a stop is queued.",
  "xtra/src/lib.rs: select")
p("select and join never drop a message and join always completes its future",
  "Every message taken from the mailbox inside select/join is dispatched exactly once, in the order taken; join always returns the future's own result, polls the future only until it completes, and handles no message after a stop or after the future's completion except at most one that was already available.",
  "all futures (any number of pending polls), all message arrival patterns, all handler outcomes", "Unbounded interleavings of future progress and messages.",
  "xtra/src/lib.rs: select, join")
p("Internal invariants never panic",
  "None of the library's internal unwrap/expect/unreachable sites can fire, in any history: queue pops after peeks, requeue on drop without a channel, message type mismatch on failed notification, taking a broadcast envelope mutably.",
  SCHED, "Panics inside the lock would poison the mailbox; absence needs all schedules.",
  "xtra/src/chan.rs: Chan::try_recv, Chan::try_send_to_all","xtra/src/recv_future.rs: Waiting::poll, Waiting::drop","xtra/src/chan/waiting_receiver.rs: notify_new_message, WaitingReceiver::poll (TODO branch)")
p("Message priority is fixed at the first poll",
  "The priority a message is queued with is the last one set with `priority` before the first poll (0 if none); setting it later panics and never changes a queued message.",
  SCHED, "Every history.",
  "xtra/src/send_future.rs: SendFuture::priority, SetPriority")
p("stop_all stops every actor",
  "After `Context::stop_all` each actor on the address shuts down as its next action after its current message (documented guarantee), whatever is queued and whichever addresses exist.",
  SCHED, "Depends on which addresses are still alive when the handler runs.",
  "xtra/src/context.rs: Context::stop_all")
p("stop_self stops only the calling actor",
  "A handler that calls `stop_self` makes exactly its own dispatch report Break; mailbox contents, other mailboxes and counts of other actors are unaffected.",
  SCHED, "Any number of actors.",
  "xtra/src/context.rs: Context::stop_self","xtra/src/envelope.rs: ReturningEnvelope::handle, BroadcastEnvelopeConcrete::handle")
p("Cancelling a blocked send affects nobody else",
  "Dropping a blocked send future removes exactly its own message: no other queued, blocked or delivered message, count or notification changes, and a later free slot goes to another blocked sender.",
  SCHED, "Any number of blocked senders.",
  "xtra/src/chan/waiting_sender.rs","xtra/src/chan.rs: find_remove_highest_priority")
p("Capacity applies separately to default and priority messages",
  "The documentation states that the default-priority, the priority and the broadcast mailbox each have their own capacity: a priority message does not wait because default-priority messages fill the mailbox.",
  "all reachable states", "Documentation claim over all states.",
  "xtra/src/address.rs: Address docs (Mailboxes)","xtra/src/chan.rs: Inner::is_unicast_full")
p("Address conversions preserve identity and strength",
  "clone, downgrade, as_either, upgrade and MessageChannel construction yield handles to the same channel, with strength preserved by clone/as_either, weak after downgrade, strong after upgrade.",
  "all chains of conversions", "Arbitrary chains.",
  "xtra/src/address.rs","xtra/src/chan/ptr.rs","xtra/src/message_channel.rs")
p("A sink sends one message at a time, in order",
  "An address sink starts sending the next item only after the previous send has completed (handled); items are handled in the order they were fed.",
  "all item sequences and readiness patterns", "Unbounded streams.",
  "xtra/src/address.rs: Address::into_sink","xtra/src/message_channel.rs: MessageChannel::into_sink")
p("Dropping a queued message never deadlocks the channel",
  "Dropping messages while the channel is being shut down never blocks forever, even if the messages own addresses of the same actor.",
  "all queue contents, including messages that own strong addresses of the receiving actor", "Requires a message owning the last strong address of its own mailbox.",
  "xtra/src/chan.rs: Chan::shutdown_waiting_senders, Chan::on_sender_dropped")
p("Channel teardown answers every sender",
  "When the last reference of any kind to the channel is gone, every still unanswered sender is resolved.",
  SCHED, "All teardown orders.",
  "xtra/src/chan.rs: Chan (drop glue)","xtra/src/chan/waiting_sender.rs: Handle::drop")
p("Every call completes",
  "Whatever other threads do, each call other than a poll of a receive future is complete after finitely many of its own actions; and if no new call begins, all calls in progress, including polls of receive futures, complete in every schedule.",
  SCHED, "Unbounded interleavings; a poll of a receive future retries when other receive futures of the same mailbox take the broadcast that it was woken for.",
  "xtra/src/chan.rs","xtra/src/recv_future.rs: ReceiveFuture::poll","xtra/src/send_future.rs")
p("No spurious wake-ups",
  "Every waker passed to a poll is woken at most once, and only after what the polled future waits for has happened: the receive future was notified, the send admitted, rejected or answered, the reply sent or given up, the join handle can resolve.",
  SCHED, "All interleavings.",
  "xtra/src/chan/waiting_sender.rs","xtra/src/chan/waiting_receiver.rs","xtra/src/send_future.rs","xtra/src/address.rs: ActorJoinHandle")
p("Actors on executors come to rest with no message left",
  "Actors that run the event loop as tasks of an executor, each polled only when new or woken: if nothing more is called from outside and handlers return, then in every schedule of tasks and threads, after finitely many steps every actor has stopped or waits while nothing is queued for it and no sender is blocked; if only actors receive messages, none of them panics or is dropped and one of them is left, every accepted message was handled; and if no strong address is left, all actors have stopped.",
  SCHED, "All interleavings of any number of tasks, senders and other calls, of any length.",
  "xtra/src/lib.rs: run, yield_once","xtra/src/mailbox.rs: Mailbox::next","xtra/src/dispatch_future.rs","xtra/src/recv_future.rs","xtra/src/chan.rs")
p("Actors on executors stop exactly when told to",
  "An actor whose receive future yielded a message to stop (the end-of-life signal, or the broadcast of stop_all), or whose running handler calls Context::stop_self, stops: whatever is called meanwhile, once no more is called from outside and the handlers return, its task completes after finitely many steps under every schedule. After Context::stop_all, if a strong address is left and only the actors receive messages, every actor that exists then stops in this sense, and the stop is the next thing it receives: a receive future that holds no message at the atomic step of stop_all never gives it a message to handle. An actor whose started hook fails never receives anything and its task completes; a mailbox is dropped exactly when its task completes. Conversely an actor stops only if it panicked or was dropped, its started hook failed, one of its own handlers called stop_self, or its own receive future yielded a message to stop; and in the last case some running handler called stop_all or no strong address was left.",
  SCHED, "all systems of tasks and calls, all schedules, all later calls",
  "xtra/src/lib.rs: run, yield_once","xtra/src/context.rs: Context::stop_self, Context::stop_all","xtra/src/dispatch_future.rs","xtra/src/chan.rs: shutdown_all_receivers")
p("Calls to actors on executors are answered",
  "If nobody calls stop_self or stop_all and a strong address is left, an actor that has started keeps working, whatever else was called before and whichever other actors panic: once no more is called from outside and the handlers return, every schedule leads after finitely many steps to a state in which it still works and, if no actor panicked or was dropped, every message that was accepted has been handled, and every caller whose send future (or detached receiver) was last seen pending has been woken and gets from its next poll exactly what the handler of its message returned. More generally, all callers are answered in this sense if no actor panicked or was dropped and some actor is left when everything has come to rest.",
  SCHED, "all systems of tasks and calls, all schedules, all earlier calls",
  "xtra/src/lib.rs: run, yield_once","xtra/src/send_future.rs","xtra/src/address.rs: Address::send","xtra/src/chan.rs: Chan::try_recv")
p("Actors that panic or are dropped",
  "An actor whose hook or handler panics, or whose task is dropped at an await point, is gone: its mailbox is dropped and its task completes. If only actors receive messages and some actor is left when everything has come to rest, every accepted message was handled, or its envelope was lost with such an actor; at most one message is lost per actor that panicked or was dropped. No caller waits for ever: if some actor is left, every caller last seen pending has been woken and gets from its next poll what the handler of its message returned, or Error::Interrupted if the message was lost.",
  SCHED, "all systems of tasks and calls, all schedules, any number of panics at any await points",
  "xtra/src/lib.rs: run, yield_once","xtra/src/dispatch_future.rs","xtra/src/recv_future.rs: Drop","xtra/src/envelope.rs","xtra/src/send_future.rs")
p("Tracing spans follow messages",
  "With the instrumentation feature: the assertion in start_span never fails; an accepted message has exactly one request span, a child of the span that was current at the first poll of its send future, with a child span for the time it waits; every handler invoked runs in a span of its own, a child of the request span of its message; if the subscriber filters out the spans of xtra, the handler runs in the span that was current at that first poll, or if there was none in the one current where the handler runs. The channel behaves as without the feature.",
  SCHED, "all interleavings, all choices of current spans",
  "xtra/src/instrumentation/tracing.rs","xtra/src/envelope.rs: start_span, handle","xtra/src/dispatch_future.rs: span, running","xtra/src/chan.rs: try_send_to_one, try_send_to_all")
p("A receive future that was notified completes at its next poll",
  "A pending receive future to which the channel has sent a message, the news of a broadcast or a shutdown never returns Pending again: its next poll is over, with a result, after at most two atomic actions, whatever other threads do meanwhile. The first poll of a receive future completes in one action if there is something to receive. Dropping a receive future right after a poll that returned Pending moves no message.",
  SCHED, "all interleavings",
  "xtra/src/recv_future.rs: ReceiveFuture (\"guaranteed to complete in a single poll\"), Receiving::poll","xtra/src/chan/waiting_receiver.rs: poll","xtra/src/chan.rs: next_broadcast_message")
p("Broadcasts to actors on executors are handled by every actor, once",
  "Of every mailbox a broadcast is handled at most once, and only if the mailbox existed when it was sent. If only the actors receive messages, then however tasks and threads are scheduled, once everything has come to rest every actor that has not stopped has handled every broadcast to its mailbox exactly once; so a broadcast is handled by every actor that had not stopped when it was sent, unless the actor stops first. If the capacity is not 0 and every mailbox ever made is run by an actor that has not stopped, every caller that waits to broadcast has been woken by then, and its next poll returns Ok.",
  SCHED, "all interleavings",
  "xtra/src/address.rs: broadcast (\"Send a message to all actors on this address\")","xtra/src/chan.rs: send_broadcast, next_broadcast_message","xtra/src/lib.rs: run")
p("Join handles of actors on executors",
  "If only the actors receive messages and every mailbox is run by an actor, then after the last strong address was dropped, or a handler called stop_all, or all actors stopped in another way, however tasks and threads are scheduled, once everything has come to rest every join handle returns when it is polled, and those polled before were woken. They do not return before all actors have stopped, unless the last strong address was dropped; and a mailbox that no actor runs keeps them waiting.",
  SCHED, "all interleavings",
  "xtra/src/address.rs: Address::join, ActorJoinHandle","xtra/src/chan.rs: disconnect_listener, shutdown_waiting_senders","xtra/src/lib.rs: run")
if __name__=="__main__":
    with open("/verif/properties.jsonl","w") as f:
        for x in P: f.write(json.dumps(x)+"\n")
    print(len(P))
