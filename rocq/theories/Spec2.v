(** More vocabulary of the property statements (priorities, stop_self, cancelled sends). *)
From stdpp Require Import base numbers list.
From Verif Require Import Prio Heap State Model Spec.

(** ** Priorities *)

(** The priority given last to the unicast message number [i] is [v]. *)
Definition last_set (s : state) (i : nat) (v : N) : Prop :=
  ∃ k l, log s = k ++ EvPrio i v :: l ∧ ∀ n, EvPrio i n ∉ k.
(** Somewhere there is the envelope [k] (number and priority) of a unicast message: in a send future, blocked,
    queued, assigned to a receiver, received, being handled; or it was received or handled. *)
Definition exists_as (s : state) (k : umsg) : Prop :=
  (∃ f x b, sfs s !! f = Some x ∧ sf_st x = SNew (PU k) b) ∨
  blocked_msg s k ∨
  k ∈ uq s ∨
  (∃ o rx, ones s !! o = Some (ON rx (OFull (CNewMsg k)))) ∨
  (∃ r h, hols s !! r = Some h ∧ (h_st h = HMsg (ToOne k) ∨ h_st h = HDispNew (ToOne k) ∨ h_st h = HRun (ToOne k))) ∨
  (∃ r, happened (EvRecv r (ToOne k)) s ∨ happened (EvHandle r (ToOne k)) s).
(** The API call [o] in the state [s] creates the broadcast number [i] (with priority [v] = 0) or gives it the
    priority [v] (possible only before the first poll of its send future). *)
Definition sets_bprio (s : state) (o : op) (i : nat) (v : N) : Prop :=
  (∃ a x, o = ABroadcast a ∧ addrs s !! a = Some x ∧ ad_live x = true ∧ i = nbm s ∧ v = 0%N) ∨
  (∃ f x b k, o = APriority f v ∧ sfs s !! f = Some x ∧ sf_live x = true ∧ sf_st x = SNew (PB b) k ∧ bm_id b = i).
(** In the execution [ops] from [s], the priority given last to the broadcast number [i] is [v]. *)
Definition last_bset (s : state) (ops : list op) (i : nat) (v : N) : Prop :=
  ∃ ops1 o ops2, ops = ops1 ++ o :: ops2 ∧ sets_bprio (run s ops1) o i v ∧
    ∀ ops3 o' ops4 v', ops2 = ops3 ++ o' :: ops4 → ¬ sets_bprio (run s (ops1 ++ o :: ops3)) o' i v'.
(** Somewhere there is the broadcast number [i] with priority [v]: in a send future, blocked, queued at a mailbox,
    received, being handled; or it was put into the queues, received or handled. *)
Definition exists_bcast_as (s : state) (i : nat) (v : N) : Prop :=
  (∃ f x k, sfs s !! f = Some x ∧ sf_st x = SNew (PB (BM i v)) k) ∨
  blocked_bcast s (BM i v) ∨
  (∃ b q, bqueues s !! b = Some q ∧ BM i v ∈ bq_heap q) ∨
  (∃ r h, hols s !! r = Some h ∧
     (h_st h = HMsg (ToAll (BM i v)) ∨ h_st h = HDispNew (ToAll (BM i v)) ∨ h_st h = HRun (ToAll (BM i v)))) ∨
  (∃ r, happened (EvRecv r (ToAll (BM i v))) s ∨ happened (EvHandle r (ToAll (BM i v))) s) ∨
  (∃ qs, happened (EvBcast (BM i v) qs) s).
(** Nothing that belongs to the channel or to its receivers differs. *)
Definition channel_same (s s' : state) : Prop :=
  uq s' = uq s ∧ ws1 s' = ws1 s ∧ wsA s' = wsA s ∧ wrx s' = wrx s ∧ tail s' = tail s ∧ txc s' = txc s ∧ rxc s' = rxc s ∧
  bqueues s' = bqueues s ∧ ones s' = ones s ∧ hols s' = hols s ∧ addrs s' = addrs s ∧ rcvs s' = rcvs s ∧ jhs s' = jhs s ∧
  lsts s' = lsts s ∧ wakes s' = wakes s.

(** ** Stopping one actor *)

(** In the execution [ops] from [s], the handler of dispatch [r] called [stop_self]. *)
Definition stopped_self (s : state) (ops : list op) (r : nat) : Prop :=
  ∃ ops1 ops2 h a, ops = ops1 ++ AStopSelf r :: ops2 ∧ hols (run s ops1) !! r = Some h ∧ h_st h = HRun a.
(** In the execution [ops] from [s], dispatch [r] was the dispatch of a stop message: the end-of-life signal or
    the broadcast of [stop_all]. *)
Definition stop_dispatched (s : state) (ops : list op) (r : nat) : Prop :=
  ∃ ops1 ops2 h a, ops = ops1 ++ ARun r :: ops2 ∧ hols (run s ops1) !! r = Some h ∧ h_st h = HDispNew a ∧
    (a = Shut ∨ ∃ i, a = ToAll (BStop i)).
(** The two states differ at most in the receiver-side object [r]. *)
Definition same_but_hol (r : nat) (s s' : state) : Prop :=
  cap s' = cap s ∧ txc s' = txc s ∧ rxc s' = rxc s ∧ uq s' = uq s ∧ ws1 s' = ws1 s ∧ wsA s' = wsA s ∧ wrx s' = wrx s ∧
  bqs s' = bqs s ∧ tail s' = tail s ∧ cells1 s' = cells1 s ∧ cellsA s' = cellsA s ∧ ones s' = ones s ∧
  bqueues s' = bqueues s ∧ reps s' = reps s ∧ lsts s' = lsts s ∧ addrs s' = addrs s ∧ sfs s' = sfs s ∧ rcvs s' = rcvs s ∧
  jhs s' = jhs s ∧ thr s' = thr s ∧ wakes s' = wakes s ∧ log s' = log s ∧
  ∀ q, q ≠ r → hols s' !! q = hols s !! q.

(** ** Cancelled sends *)

(** Between [s] and [s'] the send future [f] of the blocked unicast message [m] (in cell [c]) went away, and
    nothing else: the queues, the other blocked sends, the receivers, the counts, the other futures, the other
    replies and the wakers that were woken are the same. *)
Definition only_cancelled (f c m : nat) (s s' : state) : Prop :=
  channel_same s s' ∧ bqs s' = bqs s ∧ cellsA s' = cellsA s ∧
  (∀ d, d ≠ c → cells1 s' !! d = cells1 s !! d) ∧
  (∀ g, g ≠ f → sfs s' !! g = sfs s !! g) ∧
  (∀ i, i ≠ m → reps s' !! i = reps s !! i).
(** The same for the send future [f] of a blocked broadcast (in cell [c]). *)
Definition only_cancelled_bcast (f c : nat) (s s' : state) : Prop :=
  channel_same s s' ∧ bqs s' = bqs s ∧ cells1 s' = cells1 s ∧ reps s' = reps s ∧
  (∀ d, d ≠ c → cellsA s' !! d = cellsA s !! d) ∧
  (∀ g, g ≠ f → sfs s' !! g = sfs s !! g).
