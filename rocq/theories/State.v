(** State of one xtra channel together with every object a program can hold on
    it: addresses, mailboxes, send / receive / dispatch / join futures, and the
    calls that are currently in progress on some thread.

    Objects that Rust allocates ([Arc]s, futures, ...) are numbered by their
    position in a list of the state; nothing is ever removed from these lists. *)
From stdpp Require Import base numbers list.
From Verif Require Import Prio Heap.

(** ** Messages *)

(** envelope.rs:41-47 [ReturningEnvelope] behind chan.rs:24 [MessageToOne]: the
    identity [um_id] also names the one-shot reply channel created with it
    (envelope.rs:50-61); [um_val] is the [priority : u32] field. *)
Record umsg := UM { um_id : nat; um_val : N }.

(** envelope.rs:64-68 [HasPriority for ReturningEnvelope]. *)
Definition um_prio (m : umsg) : prio := Valued (um_val m).

(** chan.rs:25 [MessageToAll]: either envelope.rs:154-159
    [BroadcastEnvelopeConcrete] ([BM id priority]) or envelope.rs:219-220
    [Shutdown] ([BStop id]). *)
Inductive bmsg := BM (id : nat) (n : N) | BStop (id : nat).

(** Identity of a broadcast envelope (address of its [Arc]). *)
Definition bm_id (b : bmsg) : nat := match b with BM i _ => i | BStop i => i end.

(** envelope.rs:213-217 and envelope.rs:234-238. *)
Definition bm_prio (b : bmsg) : prio :=
  match b with BM _ n => Valued n | BStop _ => PShutdown end.

(** chan.rs:447-451 [enum ActorMessage]. *)
Inductive amsg := ToOne (m : umsg) | ToAll (b : bmsg) | Shut.

(** Wakers: every poll of a future gets a fresh number; waking it is recorded in
    the history variable [wakes]. *)
Notation waker := nat (only parsing).

(** ** Shared cells *)

(** waiting_sender.rs:99-103 [enum Inner]. *)
Inductive wst (A : Type) :=
| WActive (w : option waker) (m : A)
| WDelivered
| WClosed.
Arguments WActive {_} _ _. Arguments WDelivered {_}. Arguments WClosed {_}.

(** waiting_sender.rs:10-13: the [Arc<Mutex<Inner>>] shared between a blocked send
    future ([WaitingSender], the only strong owner: [wc_alive]) and the [Handle]
    (weak) stored in the channel. *)
Record wcell (A : Type) := WC { wc_alive : bool; wc_st : wst A }.
Arguments WC {_} _ _. Arguments wc_alive {_} _. Arguments wc_st {_} _.

(** waiting_receiver.rs:99-103 [enum CtrlMsg]. *)
Inductive ctrl := CNewMsg (m : umsg) | CNewBroadcast | CShutdown.

(** The [catty::oneshot] between a waiting receive future and the channel
    (waiting_receiver.rs:50-54).  catty is not part of the repository; its
    operations are assumed atomic.  [OClosed]: sender dropped without sending. *)
Inductive ostate := OEmpty (w : option waker) | OFull (c : ctrl) | OTaken | OClosed.

(** [o_rx]: the receiving half has not been dropped. *)
Record one := ON { o_rx : bool; o_st : ostate }.

(** chan.rs:26 [BroadcastQueue] behind an [Arc] with [bq_refs] strong owners. *)
Record bqueue := BQ { bq_refs : nat; bq_heap : list bmsg }.

(** The [catty::oneshot] on which a handler's result is returned
    (envelope.rs:51, send_future.rs:352).  [RClosed]: sender dropped. *)
Inductive rstate := REmpty (w : option waker) | RVal (v : nat) | RClosed | RTaken.

(** [rp_rx]: the receiving half (in the send future or the detached [Receiver])
    has not been dropped. *)
Record rep := RP { rp_rx : bool; rp_st : rstate }.

(** One registered [EventListener] of [Chan::on_shutdown] (chan.rs:43).
    event_listener is not part of the repository; operations assumed atomic. *)
Record listener := LS { ls_notified : bool; ls_wk : option waker }.

(** ** Objects held by the program *)

(** address.rs:65 [Address<A, Rc>] with ptr.rs:124,162,166-171 [TxStrong],
    [TxWeak], [TxEither]: [ad_either] says the static type is [Either]. *)
Record addr := AD { ad_strong : bool; ad_either : bool; ad_live : bool }.

(** Every receiver-side object owns one [Ptr<A, Rx>] and one [Arc<BroadcastQueue>],
    and they are moved from one to the next: mailbox.rs:11-14 [Mailbox],
    recv_future.rs:62-69 [Receiving] ([New], being polled, [Waiting]),
    recv_future.rs:30-35 [Message], dispatch_future.rs:105-116 [State]
    ([New], [Running]). [HGone]: dropped or completed. *)
Inductive hstate :=
| HMailbox
| HRecvNew | HRecvBusy | HRecvWait (o : nat)
| HMsg (a : amsg)
| HDispNew (a : amsg) | HRun (a : amsg)
| HGone.

(** [h_bq]: the broadcast queue it owns; [h_run]: the flag [Context::running]
    (context.rs:6); [h_wk]: waker of its latest poll. *)
Record holder := HO { h_bq : nat; h_st : hstate; h_run : bool; h_wk : waker }.

(** What a send future sends: send_future.rs:74 or send_future.rs:78. *)
Inductive payload := PU (m : umsg) | PB (b : bmsg).

(** send_future.rs:172-176 [enum Sending]; [SNew] owns a sender pointer which is
    strong or not; [SBusy] while a poll is in progress; [SWait c] waits on the
    cell [c] (of [cells1] or [cellsA] according to the kind of message); [SDone]:
    sent, the reply is awaited; [SFin]: the whole future has completed (polling a
    completed future breaks the contract of [Future] and is not modelled). *)
Inductive sst := SNew (p : payload) (strong : bool) | SBusy | SWait (c : nat) | SDone | SFin.

(** send_future.rs:32-41: state types of [SendFuture]; the number is the message
    whose reply it waits for. *)
Inductive smode := MReturn (m : nat) | MDetached (m : option nat) | MBroadcast.

(** send_future.rs:27-30 [SendFuture]. *)
Record sfut := SF { sf_st : sst; sf_mode : smode; sf_live : bool; sf_wk : waker }.

(** send_future.rs:352 a detached [Receiver<R>] for message [rc_m]; it is idle,
    being polled, or completed. *)
Inductive rcst := XIdle | XBusy | XFin.
Record rcv := RC { rc_m : nat; rc_st : rcst; rc_live : bool; rc_wk : waker }.

(** address.rs:251 [ActorJoinHandle(Option<EventListener>)]. *)
Record jhandle := JH { jh_l : option nat; jh_live : bool; jh_wk : waker }.

(** ** History (ghost) *)

(** Why a unicast message was dropped without its handler running to the end. *)
Inductive why :=
| DSendDropped   (** its send future was dropped before the message was accepted *)
| DDisconnected  (** the send found the channel disconnected *)
| DClosed        (** it was blocked when the last mailbox was dropped *)
| DCleared       (** it was queued when the last mailbox was dropped *)
| DWindow        (** it was assigned to a receive future whose destructor was already past the point where it gives messages back *)
| DFreed         (** the channel itself was freed *)
| DUserMsg       (** the program dropped the received message before running its handler *)
| DUserRun.      (** the program dropped the running handler *)

(** Result of polling a send future or a detached receiver. *)
Inductive sout :=
| OPending | OOk | OValue (v : nat) | OReceiver (x : nat) | OErrDisconnected | OErrInterrupted | OPanic.

(** Observable events. *)
Inductive ev :=
| EvPrio (m : nat) (n : N)          (** the unicast message [m] was created with / given priority [n] *)
| EvAccept (m : nat)                (** the unicast message [m] was queued or handed to a receiver *)
| EvBlocked (m : nat)               (** the send of [m] found the mailbox full *)
| EvBcast (b : bmsg) (qs : list nat) (** broadcast [b] was put into the queues [qs] *)
| EvRecv (r : nat) (a : amsg)       (** receive future [r] completed with [a] *)
| EvRecvPending (r : nat)           (** a poll of receive future [r] returned Pending *)
| EvHandle (r : nat) (a : amsg)     (** the handler for [a] was invoked *)
| EvDone (m : nat) (v : nat)        (** the handler for the unicast message [m] returned [v] *)
| EvFlow (r : nat) (brk : bool)     (** the dispatch [r] completed with Break / Continue *)
| EvDrop (m : nat) (y : why)
| EvSend (f : nat) (o : sout)       (** a poll of send future [f] returned [o] *)
| EvReceiver (x : nat) (o : sout)   (** a poll of the detached receiver [x] returned [o] *)
| EvJoin (j : nat) (ready : bool)   (** a poll of join handle [j] *)
| EvConn (a : nat) (b : bool)       (** [is_connected] on address [a] returned [b] *)
| EvUpgrade (a : nat) (r : option nat) (** [try_upgrade] on [a] *)
| EvUserPanic (f : nat)             (** [priority] was called on an already polled send future: documented panic *)
| EvPanic.                          (** an internal unwrap / expect / unreachable fired *)

(** ** Calls in progress

    A call is a sequence of atomic actions; one action is one lock-protected
    section of [Chan::chan], or one atomic operation on a counter, or one operation
    on a one-shot channel or cell.  Sequential consistency of the atomics is
    assumed. *)
Inductive micro :=
| UTxDec                                   (** chan.rs:84 *)
| UTxShutdown                              (** chan.rs:214-226 *)
| UTxNotify (o : nat)                      (** chan.rs:228-230, one iteration *)
| URxDec                                   (** chan.rs:66 *)
| URxShutdown                              (** chan.rs:244-259 *)
| UBqRel (b : nat)                         (** drop of an [Arc<BroadcastQueue>] *)
| UCloneReg                                (** chan.rs:94-103, from mailbox.rs:70-75 *)
| USendLd1 (f : nat) (p : payload) (k : bool) (** chan.rs:200 in chan.rs:109/139 *)
| USendLd2 (f : nat) (p : payload) (k : bool) (** chan.rs:201 in chan.rs:109/139 *)
| USendLock (f : nat) (p : payload) (k : bool) (** chan.rs:115-132 / chan.rs:147-158 *)
| USendCell1 (f : nat) (c : nat)           (** waiting_sender.rs:85-96, for a unicast message *)
| USendCellA (f : nat) (c : nat)           (** waiting_sender.rs:85-96, for a broadcast *)
| USendOk (f : nat)                        (** send_future.rs:315-317 / 334 / 344 *)
| USendErr (f : nat)                       (** send_future.rs:189 / 312, the [?] *)
| UCellDrop1 (c : nat)                     (** drop of a [WaitingSender] of a unicast send *)
| UCellDropA (c : nat)                     (** drop of a [WaitingSender] of a broadcast *)
| URepDrop (m : nat)                       (** drop of the receiving half of a reply channel *)
| URcvPoll (x : nat)                       (** send_future.rs:357-362 *)
| UReplyPoll (f : nat) (m : nat)           (** send_future.rs:334, 357-362 *)
| UTryRecv (r : nat)                       (** chan.rs:161-197 *)
| UPollOne (r : nat) (o : nat)             (** waiting_receiver.rs:81-89 *)
| UNextBc (r : nat)                        (** chan.rs:297-302 in waiting_receiver.rs:89 *)
| UCancel (o : nat)                        (** waiting_receiver.rs:63-68 in recv_future.rs:124 *)
| URequeue (m : umsg)                      (** chan.rs:286-295 in recv_future.rs:125-128 *)
| UOneDrop (o : nat)                       (** drop of the catty receiver in [Waiting] *)
| UReply (m : nat) (v : nat)               (** envelope.rs:121-125 *)
| UDropMsg (m : umsg) (y : why)            (** drop of an envelope *)
| UFlow (r : nat) (brk : bool)             (** dispatch_future.rs:138 *)
| UStopAll                                 (** chan.rs:233-241 in context.rs:33 *)
| UJoinLd1 (l : nat)                       (** chan.rs:200 in chan.rs:272 *)
| UJoinLd2 (l : nat)                       (** chan.rs:201 in chan.rs:272 *)
| UConnLd1 (a : nat)                       (** chan.rs:200 in address.rs:154-156 *)
| UConnLd2 (a : nat).                      (** chan.rs:201 in address.rs:154-156 *)

(** ** The whole state *)
Record state := mkState {
  (* chan.rs:305-313 [Inner], protected by the mutex chan.rs:42, and the counters
     chan.rs:44-45 *)
  cap : option nat;          (** capacity *)
  txc : nat;                 (** sender_count *)
  rxc : nat;                 (** receiver_count *)
  uq : list umsg;            (** unicast_queue *)
  ws1 : list nat;            (** waiting_send_to_one (handles to [cells1]) *)
  wsA : list nat;            (** waiting_send_to_all (handles to [cellsA]) *)
  wrx : list nat;            (** waiting_receivers_handles (handles to [ones]) *)
  bqs : list nat;            (** broadcast_queues (weak pointers to [bqueues]) *)
  tail : nat;                (** broadcast_tail *)
  (* shared cells *)
  cells1 : list (wcell umsg);
  cellsA : list (wcell bmsg);
  ones : list one;
  bqueues : list bqueue;
  reps : list rep;           (** reply channel of unicast message number i *)
  lsts : list listener;
  (* objects of the program *)
  addrs : list addr;
  hols : list holder;
  sfs : list sfut;
  rcvs : list rcv;
  jhs : list jhandle;
  (* calls in progress *)
  thr : list (list micro);
  (* fresh names and history *)
  nbm : nat;                 (** broadcast envelopes created *)
  nwk : nat;                 (** wakers created *)
  wakes : list nat;          (** wakers woken so far *)
  log : list ev              (** history, latest event first *)
}.

(** Field setters (boilerplate, generated by tools/gen_state.py; they model nothing). *)
Definition set_cap (v : option nat) (s : state) : state :=
  {| cap := v; txc := txc s; rxc := rxc s; uq := uq s; ws1 := ws1 s; wsA := wsA s; wrx := wrx s; bqs := bqs s; tail := tail s; cells1 := cells1 s; cellsA := cellsA s; ones := ones s; bqueues := bqueues s; reps := reps s; lsts := lsts s; addrs := addrs s; hols := hols s; sfs := sfs s; rcvs := rcvs s; jhs := jhs s; thr := thr s; nbm := nbm s; nwk := nwk s; wakes := wakes s; log := log s |}.
Definition set_txc (v : nat) (s : state) : state :=
  {| cap := cap s; txc := v; rxc := rxc s; uq := uq s; ws1 := ws1 s; wsA := wsA s; wrx := wrx s; bqs := bqs s; tail := tail s; cells1 := cells1 s; cellsA := cellsA s; ones := ones s; bqueues := bqueues s; reps := reps s; lsts := lsts s; addrs := addrs s; hols := hols s; sfs := sfs s; rcvs := rcvs s; jhs := jhs s; thr := thr s; nbm := nbm s; nwk := nwk s; wakes := wakes s; log := log s |}.
Definition set_rxc (v : nat) (s : state) : state :=
  {| cap := cap s; txc := txc s; rxc := v; uq := uq s; ws1 := ws1 s; wsA := wsA s; wrx := wrx s; bqs := bqs s; tail := tail s; cells1 := cells1 s; cellsA := cellsA s; ones := ones s; bqueues := bqueues s; reps := reps s; lsts := lsts s; addrs := addrs s; hols := hols s; sfs := sfs s; rcvs := rcvs s; jhs := jhs s; thr := thr s; nbm := nbm s; nwk := nwk s; wakes := wakes s; log := log s |}.
Definition set_uq (v : list umsg) (s : state) : state :=
  {| cap := cap s; txc := txc s; rxc := rxc s; uq := v; ws1 := ws1 s; wsA := wsA s; wrx := wrx s; bqs := bqs s; tail := tail s; cells1 := cells1 s; cellsA := cellsA s; ones := ones s; bqueues := bqueues s; reps := reps s; lsts := lsts s; addrs := addrs s; hols := hols s; sfs := sfs s; rcvs := rcvs s; jhs := jhs s; thr := thr s; nbm := nbm s; nwk := nwk s; wakes := wakes s; log := log s |}.
Definition set_ws1 (v : list nat) (s : state) : state :=
  {| cap := cap s; txc := txc s; rxc := rxc s; uq := uq s; ws1 := v; wsA := wsA s; wrx := wrx s; bqs := bqs s; tail := tail s; cells1 := cells1 s; cellsA := cellsA s; ones := ones s; bqueues := bqueues s; reps := reps s; lsts := lsts s; addrs := addrs s; hols := hols s; sfs := sfs s; rcvs := rcvs s; jhs := jhs s; thr := thr s; nbm := nbm s; nwk := nwk s; wakes := wakes s; log := log s |}.
Definition set_wsA (v : list nat) (s : state) : state :=
  {| cap := cap s; txc := txc s; rxc := rxc s; uq := uq s; ws1 := ws1 s; wsA := v; wrx := wrx s; bqs := bqs s; tail := tail s; cells1 := cells1 s; cellsA := cellsA s; ones := ones s; bqueues := bqueues s; reps := reps s; lsts := lsts s; addrs := addrs s; hols := hols s; sfs := sfs s; rcvs := rcvs s; jhs := jhs s; thr := thr s; nbm := nbm s; nwk := nwk s; wakes := wakes s; log := log s |}.
Definition set_wrx (v : list nat) (s : state) : state :=
  {| cap := cap s; txc := txc s; rxc := rxc s; uq := uq s; ws1 := ws1 s; wsA := wsA s; wrx := v; bqs := bqs s; tail := tail s; cells1 := cells1 s; cellsA := cellsA s; ones := ones s; bqueues := bqueues s; reps := reps s; lsts := lsts s; addrs := addrs s; hols := hols s; sfs := sfs s; rcvs := rcvs s; jhs := jhs s; thr := thr s; nbm := nbm s; nwk := nwk s; wakes := wakes s; log := log s |}.
Definition set_bqs (v : list nat) (s : state) : state :=
  {| cap := cap s; txc := txc s; rxc := rxc s; uq := uq s; ws1 := ws1 s; wsA := wsA s; wrx := wrx s; bqs := v; tail := tail s; cells1 := cells1 s; cellsA := cellsA s; ones := ones s; bqueues := bqueues s; reps := reps s; lsts := lsts s; addrs := addrs s; hols := hols s; sfs := sfs s; rcvs := rcvs s; jhs := jhs s; thr := thr s; nbm := nbm s; nwk := nwk s; wakes := wakes s; log := log s |}.
Definition set_tail (v : nat) (s : state) : state :=
  {| cap := cap s; txc := txc s; rxc := rxc s; uq := uq s; ws1 := ws1 s; wsA := wsA s; wrx := wrx s; bqs := bqs s; tail := v; cells1 := cells1 s; cellsA := cellsA s; ones := ones s; bqueues := bqueues s; reps := reps s; lsts := lsts s; addrs := addrs s; hols := hols s; sfs := sfs s; rcvs := rcvs s; jhs := jhs s; thr := thr s; nbm := nbm s; nwk := nwk s; wakes := wakes s; log := log s |}.
Definition set_cells1 (v : list (wcell umsg)) (s : state) : state :=
  {| cap := cap s; txc := txc s; rxc := rxc s; uq := uq s; ws1 := ws1 s; wsA := wsA s; wrx := wrx s; bqs := bqs s; tail := tail s; cells1 := v; cellsA := cellsA s; ones := ones s; bqueues := bqueues s; reps := reps s; lsts := lsts s; addrs := addrs s; hols := hols s; sfs := sfs s; rcvs := rcvs s; jhs := jhs s; thr := thr s; nbm := nbm s; nwk := nwk s; wakes := wakes s; log := log s |}.
Definition set_cellsA (v : list (wcell bmsg)) (s : state) : state :=
  {| cap := cap s; txc := txc s; rxc := rxc s; uq := uq s; ws1 := ws1 s; wsA := wsA s; wrx := wrx s; bqs := bqs s; tail := tail s; cells1 := cells1 s; cellsA := v; ones := ones s; bqueues := bqueues s; reps := reps s; lsts := lsts s; addrs := addrs s; hols := hols s; sfs := sfs s; rcvs := rcvs s; jhs := jhs s; thr := thr s; nbm := nbm s; nwk := nwk s; wakes := wakes s; log := log s |}.
Definition set_ones (v : list one) (s : state) : state :=
  {| cap := cap s; txc := txc s; rxc := rxc s; uq := uq s; ws1 := ws1 s; wsA := wsA s; wrx := wrx s; bqs := bqs s; tail := tail s; cells1 := cells1 s; cellsA := cellsA s; ones := v; bqueues := bqueues s; reps := reps s; lsts := lsts s; addrs := addrs s; hols := hols s; sfs := sfs s; rcvs := rcvs s; jhs := jhs s; thr := thr s; nbm := nbm s; nwk := nwk s; wakes := wakes s; log := log s |}.
Definition set_bqueues (v : list bqueue) (s : state) : state :=
  {| cap := cap s; txc := txc s; rxc := rxc s; uq := uq s; ws1 := ws1 s; wsA := wsA s; wrx := wrx s; bqs := bqs s; tail := tail s; cells1 := cells1 s; cellsA := cellsA s; ones := ones s; bqueues := v; reps := reps s; lsts := lsts s; addrs := addrs s; hols := hols s; sfs := sfs s; rcvs := rcvs s; jhs := jhs s; thr := thr s; nbm := nbm s; nwk := nwk s; wakes := wakes s; log := log s |}.
Definition set_reps (v : list rep) (s : state) : state :=
  {| cap := cap s; txc := txc s; rxc := rxc s; uq := uq s; ws1 := ws1 s; wsA := wsA s; wrx := wrx s; bqs := bqs s; tail := tail s; cells1 := cells1 s; cellsA := cellsA s; ones := ones s; bqueues := bqueues s; reps := v; lsts := lsts s; addrs := addrs s; hols := hols s; sfs := sfs s; rcvs := rcvs s; jhs := jhs s; thr := thr s; nbm := nbm s; nwk := nwk s; wakes := wakes s; log := log s |}.
Definition set_lsts (v : list listener) (s : state) : state :=
  {| cap := cap s; txc := txc s; rxc := rxc s; uq := uq s; ws1 := ws1 s; wsA := wsA s; wrx := wrx s; bqs := bqs s; tail := tail s; cells1 := cells1 s; cellsA := cellsA s; ones := ones s; bqueues := bqueues s; reps := reps s; lsts := v; addrs := addrs s; hols := hols s; sfs := sfs s; rcvs := rcvs s; jhs := jhs s; thr := thr s; nbm := nbm s; nwk := nwk s; wakes := wakes s; log := log s |}.
Definition set_addrs (v : list addr) (s : state) : state :=
  {| cap := cap s; txc := txc s; rxc := rxc s; uq := uq s; ws1 := ws1 s; wsA := wsA s; wrx := wrx s; bqs := bqs s; tail := tail s; cells1 := cells1 s; cellsA := cellsA s; ones := ones s; bqueues := bqueues s; reps := reps s; lsts := lsts s; addrs := v; hols := hols s; sfs := sfs s; rcvs := rcvs s; jhs := jhs s; thr := thr s; nbm := nbm s; nwk := nwk s; wakes := wakes s; log := log s |}.
Definition set_hols (v : list holder) (s : state) : state :=
  {| cap := cap s; txc := txc s; rxc := rxc s; uq := uq s; ws1 := ws1 s; wsA := wsA s; wrx := wrx s; bqs := bqs s; tail := tail s; cells1 := cells1 s; cellsA := cellsA s; ones := ones s; bqueues := bqueues s; reps := reps s; lsts := lsts s; addrs := addrs s; hols := v; sfs := sfs s; rcvs := rcvs s; jhs := jhs s; thr := thr s; nbm := nbm s; nwk := nwk s; wakes := wakes s; log := log s |}.
Definition set_sfs (v : list sfut) (s : state) : state :=
  {| cap := cap s; txc := txc s; rxc := rxc s; uq := uq s; ws1 := ws1 s; wsA := wsA s; wrx := wrx s; bqs := bqs s; tail := tail s; cells1 := cells1 s; cellsA := cellsA s; ones := ones s; bqueues := bqueues s; reps := reps s; lsts := lsts s; addrs := addrs s; hols := hols s; sfs := v; rcvs := rcvs s; jhs := jhs s; thr := thr s; nbm := nbm s; nwk := nwk s; wakes := wakes s; log := log s |}.
Definition set_rcvs (v : list rcv) (s : state) : state :=
  {| cap := cap s; txc := txc s; rxc := rxc s; uq := uq s; ws1 := ws1 s; wsA := wsA s; wrx := wrx s; bqs := bqs s; tail := tail s; cells1 := cells1 s; cellsA := cellsA s; ones := ones s; bqueues := bqueues s; reps := reps s; lsts := lsts s; addrs := addrs s; hols := hols s; sfs := sfs s; rcvs := v; jhs := jhs s; thr := thr s; nbm := nbm s; nwk := nwk s; wakes := wakes s; log := log s |}.
Definition set_jhs (v : list jhandle) (s : state) : state :=
  {| cap := cap s; txc := txc s; rxc := rxc s; uq := uq s; ws1 := ws1 s; wsA := wsA s; wrx := wrx s; bqs := bqs s; tail := tail s; cells1 := cells1 s; cellsA := cellsA s; ones := ones s; bqueues := bqueues s; reps := reps s; lsts := lsts s; addrs := addrs s; hols := hols s; sfs := sfs s; rcvs := rcvs s; jhs := v; thr := thr s; nbm := nbm s; nwk := nwk s; wakes := wakes s; log := log s |}.
Definition set_thr (v : list (list micro)) (s : state) : state :=
  {| cap := cap s; txc := txc s; rxc := rxc s; uq := uq s; ws1 := ws1 s; wsA := wsA s; wrx := wrx s; bqs := bqs s; tail := tail s; cells1 := cells1 s; cellsA := cellsA s; ones := ones s; bqueues := bqueues s; reps := reps s; lsts := lsts s; addrs := addrs s; hols := hols s; sfs := sfs s; rcvs := rcvs s; jhs := jhs s; thr := v; nbm := nbm s; nwk := nwk s; wakes := wakes s; log := log s |}.
Definition set_nbm (v : nat) (s : state) : state :=
  {| cap := cap s; txc := txc s; rxc := rxc s; uq := uq s; ws1 := ws1 s; wsA := wsA s; wrx := wrx s; bqs := bqs s; tail := tail s; cells1 := cells1 s; cellsA := cellsA s; ones := ones s; bqueues := bqueues s; reps := reps s; lsts := lsts s; addrs := addrs s; hols := hols s; sfs := sfs s; rcvs := rcvs s; jhs := jhs s; thr := thr s; nbm := v; nwk := nwk s; wakes := wakes s; log := log s |}.
Definition set_nwk (v : nat) (s : state) : state :=
  {| cap := cap s; txc := txc s; rxc := rxc s; uq := uq s; ws1 := ws1 s; wsA := wsA s; wrx := wrx s; bqs := bqs s; tail := tail s; cells1 := cells1 s; cellsA := cellsA s; ones := ones s; bqueues := bqueues s; reps := reps s; lsts := lsts s; addrs := addrs s; hols := hols s; sfs := sfs s; rcvs := rcvs s; jhs := jhs s; thr := thr s; nbm := nbm s; nwk := v; wakes := wakes s; log := log s |}.
Definition set_wakes (v : list nat) (s : state) : state :=
  {| cap := cap s; txc := txc s; rxc := rxc s; uq := uq s; ws1 := ws1 s; wsA := wsA s; wrx := wrx s; bqs := bqs s; tail := tail s; cells1 := cells1 s; cellsA := cellsA s; ones := ones s; bqueues := bqueues s; reps := reps s; lsts := lsts s; addrs := addrs s; hols := hols s; sfs := sfs s; rcvs := rcvs s; jhs := jhs s; thr := thr s; nbm := nbm s; nwk := nwk s; wakes := v; log := log s |}.
Definition set_log (v : list ev) (s : state) : state :=
  {| cap := cap s; txc := txc s; rxc := rxc s; uq := uq s; ws1 := ws1 s; wsA := wsA s; wrx := wrx s; bqs := bqs s; tail := tail s; cells1 := cells1 s; cellsA := cellsA s; ones := ones s; bqueues := bqueues s; reps := reps s; lsts := lsts s; addrs := addrs s; hols := hols s; sfs := sfs s; rcvs := rcvs s; jhs := jhs s; thr := thr s; nbm := nbm s; nwk := nwk s; wakes := wakes s; log := v |}.
