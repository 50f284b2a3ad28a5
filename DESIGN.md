# Formal model of the xtra channel and actor runtime

Everything here is about `/repo/xtra/src` (read as text; nothing was built or run).
Prover: Coq 8.16.1 with std++; sources in `rocq/theories`.

## What is modelled, and how

| file | content |
|---|---|
| `Prio.v` | `chan/priority.rs` |
| `Heap.v` | std's `BinaryHeap::{push,pop,peek}` exactly as std implements them (array, sift up, sift down to bottom) – needed because the order among equal priorities is decided by that algorithm |
| `State.v` | the state of one channel, of every object a program can hold on it, the list of calls in progress, and a history |
| `Model.v` | `chan.rs`, `chan/{ptr,waiting_sender,waiting_receiver}.rs`, `recv_future.rs`, `send_future.rs`, `envelope.rs`, `dispatch_future.rs`, `mailbox.rs`, `address.rs` (channel part), `context.rs` |
| `Actor.v` | `lib.rs` `run`, `select`, `join`, `yield_once` |
| `Scoped.v` | `scoped_task.rs`, on top of the channel machine |
| `Sink.v` | `address.rs` `into_sink`, on top of the channel machine |
| `System.v` | `lib.rs` `run`, `yield_once`, `mailbox.rs` `next` as tasks of executors: polled when new or woken, and dropped (or unwound by a panic of a hook or handler) at an await point |
| `Span.v` | `instrumentation/tracing.rs` and its uses, on top of the channel machine |
| `AddrEq.v` | `address.rs` / `message_channel.rs` `PartialEq`, `PartialOrd`, `Ord`, `Hash` |
| `Reent.v` | drop of queued messages under the channel lock (re-entrancy) |

The channel model is an interleaving machine.  A call of the public API becomes a
*thread*: a list of atomic actions (`micro`).  One action is one critical section of
the channel mutex, one atomic operation on a reference count, one operation on a
one-shot channel, a waiting-sender cell or an event listener.  `step s (Step t)`
lets thread `t` do its next action, every other `op` begins a call.  A *reachable
state* is `run (init cap) ops` for any capacity and any list of `op`s, so theorems
about reachable states are about any number of threads, objects and calls and every
interleaving at the granularity of those actions.  *Quiet* states are those with no
call in progress; *single-threaded* executions are those in which calls begin only
in quiet states.

`ModelTests.v` replays the repository's own tests (`xtra/tests/basic.rs`, the unit tests of
`chan/ptr.rs` and `message_channel.rs`) in the models, one schedule each.  These are bounded
checks that the models were read off the code correctly, not property theorems.

Observations (results of polls, messages received, handlers run, drops) go into the
history `log`; wake-ups go to `wakes`.

### Trusted / assumed

* Coq's kernel (8.16.1) and, per theorem, what `Print Assumptions` prints under it
  (the `Props*.v` files print it at build time; the target is "Closed under the
  global context" everywhere).
* The reading of the Rust code, documented at each definition (file:lines).
* Sequential consistency of the atomics (the code uses Relaxed/Release/Acquire/SeqCst);
  no memory-model reasoning.
* `catty` one-shot channels, `event_listener`, `spin::Mutex`, `std::sync::Mutex`, `Arc`
  are not in the repository: their operations are taken as atomic with their
  documented behaviour; `notify(usize::MAX)` notifies the listeners registered so far;
  `catty::Receiver::try_recv` does not close the channel.
* `BinaryHeap` is modelled from the source of std.
* `futures_util`'s `select` (polls the first future, then the second; gives back the
  other one), `FutureExt::now_or_never` (one poll) and `sink::unfold` (one future at a
  time, polled until it resolves, the state lost with an error) are modelled from their
  documentation, each at the definition that uses it.

The files are layered: models (`Prio Heap State Model Actor AddrEq Scoped Sink Reent System Span`),
vocabulary of the statements (`Spec Spec2 WaitSpec ActorSpec AddrSpec ScopedSpec SinkSpec ReentSpec OrderSpec FinishSpec SystemSpec StopSpec CallSpec SpanSpec PollSpec BcastSpec JoinSpec`), invariants
and proofs, concrete runs (`Witness*`), statements with their final proofs (`Claims*`)
and the property theorems (`Props*`).

### Not modelled

Memory ordering weaker than SC; counter overflow (`usize`/`u32` are unbounded);
mutex poisoning; allocation failure; panics other than of hooks
and handlers of tasks (`System.v`, property C56); when `tracing` spans
are closed and what they record (their tree is, `Span.v`, property C57); `spawn_*` wrappers of `spawn.rs` (they call `run`); the
`macros` crate (`#[derive(Actor)]`); destructors of message payloads that call back
into the channel (except in `Reent.v`, property C49; there the race in which
`send_broadcast` owns the last reference of a mailbox's broadcast queue is left out);
dropping the futures of `select` and `join` half-way; executors other than by
the rule that a task is polled when it is new or woken (`System.v`, properties C53 to C56); polling a future after it
completed or using an object from two threads at once (`&mut` / the contract of
`Future` exclude it).  Messages carry an identity instead of a payload and handlers
are external: the environment decides when a handler returns and which value it
returns, and may call any API function in the meantime.

## Plan per property

"invariant" = proved for every reachable state, by induction over the operations.

| id | modelled | how |
|---|---|---|
| C01 | unicast messages from `send` to handler return | counting invariant: number of `EvRecv`/`EvHandle` events per message ≤ 1 |
| C02 | same | conservation invariant: accepted = in exactly one of the listed places |
| C03 | same | conservation: failed/cancelled excludes acceptance, for all continuations |
| C04 | receive-future drop | single-threaded: proved; with threads: `_refuted` (race between `cancel` and the drop of the one-shot receiver) |
| C05, C06 | broadcast queues | counting invariant per (broadcast, mailbox queue) |
| C07, C08, C09 | `try_recv` and the heap | heap-order proof of the std algorithm |
| C10 | heap | `_refuted` for ≥ 4 queued messages; FIFO proved for queues of ≤ 3 (`_partial`) |
| C11 | `find_remove_highest_priority` | priority part proved (`_partial`), FCFS `_refuted` (last of the equals wins) |
| C12 | queue length | `_refuted` (requeue); exact bound without cancelled receives (`_partial`) |
| C13 | send critical section | case analysis, stated on the state before/after |
| C14, C15, C16 | wait queues | invariants; C16 proved for capacity ≥ 1 or unbounded, `_refuted` for 0 |
| C17, C18, C19 | broadcast backlog | invariants on `tail`; C18 and the naive reading of C19 `_refuted` (dropped lagging mailbox) |
| C20, C21 | reference counts | token-counting invariants |
| C22, C23, C24 | connectivity | consequences of the counts; for all continuations |
| C25, C26, C27 | disconnection | invariants over shutdown actions; C27 `_refuted` under threads (check-then-lock), single-threaded proved |
| C28–C30 | reply channel | invariants relating reply cell and history |
| C31–C33 | wakers | invariants relating latest poll and `wakes` |
| C34 | join | `_refuted` (last strong address dropped while a mailbox lives) |
| C35, C38–C40, C48 | control loops | separate small-step model, induction over poll schedules; C39 `_refuted` |
| C36, C37, C47 | address comparisons and conversions | direct; C37 `_refuted` for `Either` |
| C41 | panic sites | invariant: no `EvPanic` |
| C42 | priority | invariant: queued priority = last one logged |
| C43 | stop_all | proved while a strong address exists (`_partial`), `_refuted` otherwise |
| C44, C45 | frame properties | direct, two-state statements |
| C46 | capacity kinds | `_refuted`: one shared unicast capacity |
| C49 | message drop under the lock | `_refuted` in `Reent.v`; safe for messages without strong addresses |
| C50 | teardown | invariant of states in which nothing owns the channel |
| C51 | every call completes | lexicographic measure on the actions still to come (`FinishProofs.v`) |
| C52 | wakers | counting invariant: a waker is in at most one place (`InvSpur.v`) |
| C53 | tasks running `run`, woken by the wakers of the channel (`System.v`) | every step decreases a lexicographic measure (`SystemProofs.v`, `SystemEnd.v`); at rest C15, C25, C31 and the accounting of C02 apply |
| C54 | tasks that are told to stop (`StopSpec.v`) | invariants of one task: told to stop, or the broadcast of `stop_all` is in its queue and only its own receive future can take it; records of the requests (`SystemStop.v`); a queue that holds a stop yields nothing of lower priority (`SystemNext.v`) |
| C55 | callers that were last told Pending (`CallSpec.v`) | messages to stop have a cause (`SystemCause.v`); at rest no message is queued or blocked, so C29 and C32 apply to every caller (`SystemCalls.v`) |
| C56 | tasks that are dropped or unwind at an await point (`SCancel` in `System.v`) | the accounting of C02 with one more way for a message to end; each cancelled task drops at most the one envelope it holds (`SystemLost.v`); callers as in C55 (`SystemCalls.v`) |
| C57 | spans and the span current on each thread (`Span.v`) | invariant over runs of the layer: unsent messages have no instrumentation, all others exactly one (`SpanChan.v`, `SpanProofs.v`) |
| C58 | machine | a notified one-shot channel stays full until its owner polls it, and the queue it promises stays non-empty (`PollProofs.v`); the drop of an idle future changes no queue (`FinalPoll.v`) |
| C59 | system | receptions and handler runs of a queue are counted against the event log; at rest the queue of a waiting actor is empty (`SystemBcast.v`); a queue without owners stays so, hence no broadcast was thrown away if every queue has an owner at the end (`SystemBcall.v`) |
| C60 | system | at rest no mailbox object is left, so C33 applies; a returned join handle means disconnection, for ever (`SystemJoin.v`) |
