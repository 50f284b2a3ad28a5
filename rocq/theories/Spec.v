(** Vocabulary of the property statements.  Nothing here mentions an invariant or a
    helper function of the model: only executions, the history of events, and the
    fields of the state that a user can name. *)
From stdpp Require Import base numbers list.
From Verif Require Import Prio Heap State Model.

(** ** Executions *)

(** A state that some execution of some channel reaches (any capacity). *)
Definition reachable (s : state) : Prop := ∃ c ops, s = run (init c) ops.
(** A state that some execution starting in [s] reaches. *)
Definition later (s s' : state) : Prop := ∃ ops, s' = run s ops.
(** No call is in progress. *)
Definition quiet (s : state) : Prop := ∀ t p, thr s !! t = Some p → p = [].
(** The next atomic action of thread [t] is [u]. *)
Definition next_action (s : state) (t : nat) (u : micro) : Prop := ∃ rest, thr s !! t = Some (u :: rest).

(** ** Counting *)
Definition cnt {A} (p : A → bool) (l : list A) : nat := length (List.filter p l).
(** How often an event happened so far. *)
Definition times (p : ev → bool) (s : state) : nat := cnt p (log s).
(** How many calls in progress still have a given action to do. *)
Definition todo (p : micro → bool) (s : state) : nat := cnt p (concat (thr s)).
Definition happened (e : ev) (s : state) : Prop := e ∈ log s.
(** The events [k] (latest first) happened between [s] and [s']. *)
Definition between (s s' : state) (k : list ev) : Prop := log s' = k ++ log s.
(** The event [e] happened between [s] and [s']. *)
Definition newly (s s' : state) (e : ev) : Prop := ∃ k, between s s' k ∧ e ∈ k.

(** ** Events about the unicast message number [m] *)
Definition accepted (m : nat) (e : ev) : bool := match e with EvAccept x => x =? m | _ => false end.
Definition received (m : nat) (e : ev) : bool :=
  match e with EvRecv _ (ToOne x) => um_id x =? m | _ => false end.
Definition handled (m : nat) (e : ev) : bool :=
  match e with EvHandle _ (ToOne x) => um_id x =? m | _ => false end.
Definition finished (m : nat) (e : ev) : bool := match e with EvDone x _ => x =? m | _ => false end.
Definition dropped (ys : why → bool) (m : nat) (e : ev) : bool :=
  match e with EvDrop x y => (x =? m) && ys y | _ => false end.
(** Dropped before it was accepted. *)
Definition before_accept (y : why) : bool :=
  match y with DSendDropped | DDisconnected | DClosed => true | _ => false end.
(** Dropped between acceptance and reception. *)
Definition before_receive (y : why) : bool :=
  match y with DCleared | DWindow | DFreed => true | _ => false end.
(** Dropped by the program after reception. *)
Definition by_program (y : why) : bool := match y with DUserMsg | DUserRun => true | _ => false end.

(** ** Places where the unicast message number [m] can be *)
Definition in_queue (m : nat) (s : state) : nat := cnt (λ x, um_id x =? m) (uq s).
(** Assigned to a waiting receive future that has not picked it up yet. *)
Definition in_flight (m : nat) (s : state) : nat :=
  cnt (λ x, match o_st x with OFull (CNewMsg k) => um_id k =? m | _ => false end) (ones s).
(** Being put back by the destructor of a receive future. *)
Definition in_requeue (m : nat) (s : state) : nat :=
  todo (λ u, match u with URequeue x => um_id x =? m | _ => false end) s.
(** Being dropped for one of the given reasons. *)
Definition in_drop (ys : why → bool) (m : nat) (s : state) : nat :=
  todo (λ u, match u with UDropMsg x y => (um_id x =? m) && ys y | _ => false end) s.
(** Received, handler not invoked yet. *)
Definition held (m : nat) (s : state) : nat :=
  cnt (λ h, match h_st h with HMsg (ToOne x) | HDispNew (ToOne x) => um_id x =? m | _ => false end) (hols s).
(** Its handler is running. *)
Definition running (m : nat) (s : state) : nat :=
  cnt (λ h, match h_st h with HRun (ToOne x) => um_id x =? m | _ => false end) (hols s).
(** Its send is blocked: it sits in the cell of a pending send future. *)
Definition blocked (m : nat) (s : state) : nat :=
  cnt (λ x, match x with WC true (WActive _ k) => um_id k =? m | _ => false end) (cells1 s).

(** The message a send future sends, if it is (still) known to the future. *)
Definition message_of (x : sfut) : option nat :=
  match sf_mode x with MReturn m => Some m | MDetached o => o | MBroadcast => None end.

(** ** Receivers *)

(** The receive future [r] is waiting and has not been notified of anything. *)
Definition idle (s : state) (r : nat) : Prop :=
  ∃ h o rx w, hols s !! r = Some h ∧ h_st h = HRecvWait o ∧ ones s !! o = Some (ON rx (OEmpty w)).
(** The broadcasts that mailbox queue [b] has not received yet. *)
Definition backlog (s : state) (b : nat) : list bmsg :=
  match bqueues s !! b with Some q => bq_heap q | None => [] end.
(** Some mailbox, receive future, received message or handler still owns queue [b]. *)
Definition owned_queue (s : state) (b : nat) : Prop :=
  ∃ r h, hols s !! r = Some h ∧ h_st h ≠ HGone ∧ h_bq h = b.

(** A call in progress is about to send the waiting receive future [r] its
    end-of-life notification. *)
Definition being_notified (s : state) (r : nat) : Prop :=
  ∃ h o t p, hols s !! r = Some h ∧ h_st h = HRecvWait o ∧ thr s !! t = Some p ∧ UTxNotify o ∈ p.

(** ** Connection *)
Definition is_conn (s : state) : Prop := 0 < rxc s ∧ 0 < txc s.

(** Handles that keep the actor alive: live strong addresses, ... *)
Definition strong_addresses (s : state) : nat := cnt (λ a, ad_live a && ad_strong a) (addrs s).
(** ... send futures not polled yet that were made from a strong address, ... *)
Definition strong_futures (s : state) : nat :=
  cnt (λ f, match sf_st f with SNew _ k => k | _ => false end) (sfs s).
(** ... and calls in progress that own a strong handle (sends that have not finished
    with it, and drops that have not yet decremented the count). *)
Definition strong_calls (s : state) : nat :=
  todo (λ u, match u with
             | UTxDec => true
             | USendLd1 _ _ k | USendLd2 _ _ k | USendLock _ _ k => k
             | _ => false
             end) s.
(** Objects that own a mailbox handle: mailboxes, receive futures, received messages,
    dispatch futures. *)
Definition mailbox_objects (s : state) : nat :=
  cnt (λ h, match h_st h with HGone => false | _ => true end) (hols s).
(** Calls in progress that own one. *)
Definition mailbox_calls (s : state) : nat :=
  todo (λ u, match u with URxDec | UCloneReg => true | _ => false end) s.

(** ** Order of priorities: [Valued] by value, [PShutdown] above everything *)
Definition ple (a b : prio) : Prop :=
  match a, b with
  | Valued m, Valued n => (m ≤ n)%N
  | _, PShutdown => True
  | PShutdown, Valued _ => False
  end.
Definition plt (a b : prio) : Prop := ple a b ∧ ¬ ple b a.
(** Priority of a received message. *)
Definition amsg_prio (a : amsg) : option prio :=
  match a with ToOne m => Some (um_prio m) | ToAll b => Some (bm_prio b) | Shut => None end.
(** [a] may be taken next by a mailbox with queue [b]: nothing queued for it has a higher
    priority, a broadcast is strictly above every unicast message, and the end-of-life
    signal comes only when nothing is queued and no strong handle is left. *)
Definition may_take (s : state) (b : nat) (a : amsg) : Prop :=
  match a with
  | ToOne m => m ∈ uq s ∧ (∀ y, y ∈ uq s → ple (um_prio y) (um_prio m)) ∧
               (∀ x, x ∈ backlog s b → ple (bm_prio x) (um_prio m))
  | ToAll x => x ∈ backlog s b ∧ (∀ y, y ∈ backlog s b → ple (bm_prio y) (bm_prio x)) ∧
               (∀ y, y ∈ uq s → plt (um_prio y) (bm_prio x))
  | Shut => uq s = [] ∧ backlog s b = [] ∧ txc s = 0
  end.
(** Everything queued for a mailbox with queue [b]. *)
Definition pending_for (s : state) (b : nat) : list amsg := (ToOne <$> uq s) ++ (ToAll <$> backlog s b).

(** Successive fresh receives on the mailbox queue [b] return [l], with no other effect on
    what is queued for it: no message is accepted or taken by anyone else in between. *)
Inductive drains (b : nat) : state → list amsg → state → Prop :=
| drains_nil s : drains b s [] s
| drains_other s o s' l :
    uq (step s o) = uq s → backlog (step s o) b = backlog s b →
    drains b (step s o) l s' → drains b s l s'
| drains_recv s t r h a s' l :
    next_action s t (UTryRecv r) → hols s !! r = Some h → h_bq h = b →
    between s (step s (Step t)) [EvRecv r a] →
    drains b (step s (Step t)) l s' → drains b s (a :: l) s'.
(** The priority of [y] is at most that of [x]. *)
Definition not_above (x y : amsg) : Prop :=
  match amsg_prio x, amsg_prio y with
  | Some p, Some q => ple q p
  | _, None => True
  | None, Some _ => False
  end.

(** ** Blocked sends *)

(** The unicast message [k] is blocked. *)
Definition blocked_msg (s : state) (k : umsg) : Prop := ∃ c w, cells1 s !! c = Some (WC true (WActive w k)).
(** The broadcast [x] is blocked. *)
Definition blocked_bcast (s : state) (x : bmsg) : Prop := ∃ c w, cellsA s !! c = Some (WC true (WActive w x)).
(** Some receiver is registered as waiting and has not been notified. *)
Definition receiver_ready (s : state) : Prop := ∃ o w, o ∈ wrx s ∧ ones s !! o = Some (ON true (OEmpty w)).
(** The mailbox has a capacity and [len] has reached it. *)
Definition at_capacity (s : state) (len : nat) : Prop := ∃ n, cap s = Some n ∧ n ≤ len.

(** ** Order of events *)

(** [e1] happened before [e2] ([log] lists the latest event first). *)
Definition before (e1 e2 : ev) (s : state) : Prop :=
  ∃ i j, i < j ∧ log s !! i = Some e2 ∧ log s !! j = Some e1.
(** Only messages of the default priority were ever sent. *)
Definition default_priorities (s : state) : Prop := ∀ m n, happened (EvPrio m n) s → n = 0%N.
(** No broadcast was ever accepted. *)
Definition no_broadcasts (s : state) : Prop := ∀ b qs, ¬ happened (EvBcast b qs) s.
(** How many receiver-side objects the program dropped in an execution. *)
Definition dropped_receivers (ops : list op) : nat :=
  cnt (λ o, match o with ADropHol _ => true | _ => false end) ops.

(** ** Replies *)

(** Polling the send future [f] now, as the only call, returns [o]. *)
Definition resolves_to (s : state) (f : nat) (o : sout) : Prop :=
  ∃ n, newly s (run s (APollSend f :: replicate n (Step (length (thr s))))) (EvSend f o).
(** Polling the detached receiver [x] now, as the only call, returns [o]. *)
Definition receiver_resolves_to (s : state) (x : nat) (o : sout) : Prop :=
  ∃ n, newly s (run s (APollRcv x :: replicate n (Step (length (thr s))))) (EvReceiver x o).
(** [f] is a send future that can be polled. *)
Definition pollable (x : sfut) : Prop := sf_live x = true ∧ sf_st x ≠ SFin ∧ sf_st x ≠ SBusy.

(** Nothing is left that refers to the channel: no live address, no receiver-side object, no
    unsent send future, no call in progress. *)
Definition abandoned (s : state) : Prop :=
  quiet s ∧ (∀ a x, addrs s !! a = Some x → ad_live x = false) ∧
  (∀ r h, hols s !! r = Some h → h_st h = HGone) ∧
  (∀ f x p k, sfs s !! f = Some x → sf_live x = true → sf_st x ≠ SNew p k).
(** The message was handled to the end or dropped. *)
Definition over (m : nat) (s : state) : Prop := (∃ v, happened (EvDone m v) s) ∨ (∃ y, happened (EvDrop m y) s).

(** A poll of the send future [f] / detached receiver [x] returned something else than Pending. *)
Definition completes (f : nat) (e : ev) : bool :=
  match e with EvSend g o => (g =? f) && match o with OPending => false | _ => true end | _ => false end.
Definition receiver_completes (x : nat) (e : ev) : bool :=
  match e with EvReceiver y o => (y =? x) && match o with OPending => false | _ => true end | _ => false end.
(** The destructor of a blocked send future has begun and not finished. *)
Definition cancelling (s : state) : nat := todo (λ u, match u with UCellDrop1 _ => true | _ => false end) s.

(** ** Broadcasts *)

(** Broadcast number [i] was accepted: put into the queues of mailboxes. *)
Definition broadcasted (i : nat) (e : ev) : bool := match e with EvBcast x _ => bm_id x =? i | _ => false end.
(** How many unreceived copies of broadcast [i] the mailbox queue [b] holds. *)
Definition copies (i b : nat) (s : state) : nat := cnt (λ x, bm_id x =? i) (backlog s b).
(** How often a receive future of the mailbox with queue [b] returned broadcast [i]. *)
Definition got (i b : nat) (s : state) : nat :=
  times (λ e, match e with
              | EvRecv r (ToAll x) => (bm_id x =? i) && match hols s !! r with Some h => h_bq h =? b | None => false end
              | _ => false
              end) s.
(** Not a stop signal. *)
Definition ordinary (x : bmsg) : bool := match x with BM _ _ => true | BStop _ => false end.
(** Some receiver-side object owns queue [b], or a call in progress is about to give up the
    share it owns. *)
Definition kept_queue (s : state) (b : nat) : Prop :=
  owned_queue s b ∨ ∃ t p, thr s !! t = Some p ∧ UBqRel b ∈ p.
(** The step [o] throws away a mailbox queue that still holds broadcasts. *)
Definition discards (s : state) (o : op) : Prop :=
  ∃ t b q, o = Step t ∧ next_action s t (UBqRel b) ∧ bqueues s !! b = Some q ∧ bq_refs q = 1 ∧ bq_heap q ≠ [].
(** No step of the execution [ops] from [s] throws away unreceived broadcasts. *)
Fixpoint keeps (s : state) (ops : list op) : Prop :=
  match ops with [] => True | o :: l => ¬ discards s o ∧ keeps (step s o) l end.
(** Every accepted broadcast found at least one mailbox.  (In Rust it always does while a
    mailbox exists, because a mailbox cannot be dropped while it is being cloned.) *)
Definition no_void_broadcast (s : state) : Prop := ∀ x, ¬ happened (EvBcast x []) s.

(** ** End of the last mailbox *)

(** Sends that have passed (part of) their check for connectedness and have not looked at the queues yet. *)
Definition sends_past_check (s : state) : nat :=
  todo (λ u, match u with USendLd2 _ _ _ | USendLock _ _ _ => true | _ => false end) s.

(** Single-threaded executions: a call begins only when no other call is in progress. *)
Fixpoint sequential (s : state) (ops : list op) : Prop :=
  match ops with [] => True | o :: l => ((∀ t, o ≠ Step t) → quiet s) ∧ sequential (step s o) l end.

(** ** Wake-ups *)

(** The waker [w] has been woken. *)
Definition woken (s : state) (w : nat) : Prop := w ∈ wakes s.
(** Polling the receive future [r] now, as the only call, completes it with [a]. *)
Definition receive_resolves_to (s : state) (r : nat) (a : amsg) : Prop :=
  ∃ n, newly s (run s (APollRecv r :: replicate n (Step (length (thr s))))) (EvRecv r a).
(** The last poll of the send future returned Pending. *)
Definition send_pending (x : sfut) : Prop :=
  sf_live x = true ∧ ((∃ c, sf_st x = SWait c) ∨ (sf_st x = SDone ∧ ∃ m, sf_mode x = MReturn m)).
(** What it waited for has not happened: it is still blocked, or its reply is not there. *)
Definition send_waits (s : state) (x : sfut) : Prop :=
  match sf_st x, sf_mode x with
  | SWait c, MBroadcast => ∃ a w b, cellsA s !! c = Some (WC a (WActive w b))
  | SWait c, _ => ∃ a w m, cells1 s !! c = Some (WC a (WActive w m))
  | SDone, MReturn m => ∃ rx w, reps s !! m = Some (RP rx (REmpty w))
  | _, _ => False
  end.
(** The last poll of the detached receiver number [i] returned Pending. *)
Definition receiver_pending (s : state) (i : nat) (x : rcv) : Prop :=
  rcvs s !! i = Some x ∧ rc_live x = true ∧ rc_st x = XIdle ∧ happened (EvReceiver i OPending) s.
(** Its reply is not there. *)
Definition receiver_waits (s : state) (x : rcv) : Prop := ∃ rx w, reps s !! rc_m x = Some (RP rx (REmpty w)).
(** The last poll of the join handle [j] (if any) returned Pending. *)
Definition join_pending (s : state) (j : nat) : Prop := happened (EvJoin j false) s ∧ ¬ happened (EvJoin j true) s.
(** Calls in progress that still have to tell everyone that the last mailbox is gone. *)
Definition shutdowns (s : state) : nat := todo (λ u, match u with URxShutdown => true | _ => false end) s.
