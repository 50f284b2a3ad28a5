(** The repository's own tests, xtra/tests/basic.rs, replayed in the model.

    These are tests of the model, not theorems about all executions: each Example runs one schedule of one test, as an
    executor with one thread would run it, and checks what the test asserts.  A test with several tasks is replayed with
    every task polled as long as it can continue, each time something woke it.  [run] is the function of System.v.
    Timeouts are replayed as the drop of the future.  Tests that use nothing new compared to the others are left out:
    basic.rs:281-313 (a sleeping handler), 810-827 (Debug of a message channel). *)
From stdpp Require Import base numbers list.
From Verif Require Import Prio Heap State Model Witness System.
From Verif Require Scoped AddrEq.

(** What the handlers of the actor do with their context, for the message whose dispatch is number [r]. *)
Definition script := amsg → nat → list op.
Definition plain : script := λ _ _, [].
(** The unicast messages in [l] stop the actor that handles them. *)
Definition stops (l : list nat) : script :=
  λ a r, match a with ToOne m => if existsb (Nat.eqb (um_id m)) l then [AStopSelf r] else [] | _ => [] end.
Definition stops_all (l : list nat) : script :=
  λ a r, match a with ToOne m => if existsb (Nat.eqb (um_id m)) l then [AStopAll r] else [] | _ => [] end.

(** Calls, each run to its end. *)
Definition calm (y : sys) : sys := SY (settle 200 (ch y)) (tk y).
Definition calls (l : list op) (y : sys) : sys := fold_left (λ y o, calm (sys_step y (SCall o))) l y.
(** One poll of the task number [i]: it continues until it has to wait or is done. *)
Fixpoint poll_n (n : nat) (hd : script) (i : nat) (y : sys) : sys :=
  match n with
  | 0 => y
  | S n =>
      match tk y !! i with
      | Some t =>
          let y1 := match t_st t with
                    | TAwait r => match hols (ch y) !! r with Some (HO _ (HRun a) _ _) => calls (hd a r) y | _ => y end
                    | _ => y
                    end in
          match task_step t 0 (ch y1) with
          | Some _ => poll_n n hd i (calm (sys_step y1 (STask i 0)))
          | None => y1
          end
      | None => y
      end
  end.
Definition poll (hd : script) (i : nat) (y : sys) : sys := poll_n 200 hd i y.
Definition spawn (h : nat) (y : sys) : sys := sys_step y (SSpawn h).
(** lib.rs:240-245 [yield_once] on the mailbox [h], whose receive future gets the number [r]. *)
Definition yield (h r : nat) : list op := recv h r ++ handle r 0.

(** The task returned. *)
Definition finished (i : nat) (y : sys) : bool := match tk y !! i with Some (TK _ TDone) => true | _ => false end.
(** The latest poll of the send future [f]. *)
Definition sent (f : nat) (y : sys) : option sout :=
  match List.find (λ e, match e with EvSend g _ => g =? f | _ => false end) (log (ch y)) with Some (EvSend _ o) => Some o | _ => None end.
Definition pending (f : nat) (y : sys) : bool := match sent f y with Some OPending => true | _ => false end.
Definition ready (f : nat) (y : sys) : bool := match sent f y with Some (OOk | OReceiver _ | OValue _) => true | _ => false end.
(** The latest poll of the join handle [j]. *)
Definition joined (j : nat) (y : sys) : bool :=
  match List.find (λ e, match e with EvJoin k _ => k =? j | _ => false end) (log (ch y)) with Some (EvJoin _ b) => b | _ => false end.
(** [is_connected] of address [a]. *)
Definition conn (a : nat) (y : sys) : option bool :=
  match log (ch (calls [AConnected a] y)) with EvConn b v :: _ => if b =? a then Some v else None | _ => None end.
(** The messages for which a handler was invoked by the dispatch futures with numbers in [p], oldest first; a broadcast
    is [inr]. *)
Definition handled (p : nat → bool) (y : sys) : list (nat + nat) :=
  omap (λ e, match e with
             | EvHandle r (ToOne m) => if p r then Some (inl (um_id m)) else None
             | EvHandle r (ToAll b) => if p r then Some (inr (bm_id b)) else None
             | _ => None
             end) (rev (log (ch y))).
Definition all : nat → bool := λ _, true.

(** A detached send with a priority, polled once; the same of a broadcast. *)
Definition dsend (f : nat) (n : N) : list op := [ASend 0; APriority f n; ADetach f; APollSend f].
Definition bcast (f : nat) (n : N) : list op := [ABroadcast 0; APriority f n; APollSend f].
Notation "y ▷ f" := (f y) (at level 50, left associativity, only parsing).
Definition new (c : option nat) : sys := sys_init c.

(** basic.rs:60-75 [accumulate_to_ten]: the task is new, or waits, whenever something is sent; the report comes last. *)
Example accumulate_to_ten :
  let y := new None ▷ spawn 0 ▷ calls (dsend 0 0) ▷ poll plain 0 ▷ calls (concat (map (λ f, dsend f 0) (seq 1 9)))
             ▷ poll plain 0 ▷ calls (send 0 10) ▷ poll plain 0 ▷ calls [APollSend 10] in
  length (handled all y) = 11 ∧ last (handled all y) = Some (inl 10) ∧ ready 10 y = true.
Proof. vm_compute. repeat split; reflexivity. Qed.

(** basic.rs:99-112 [actor_stops_on_last_drop_of_address]. *)
Example actor_stops_on_last_drop_of_address :
  let y := new None ▷ spawn 0 ▷ poll plain 0 ▷ calls [ADowngrade 0; AJoin 1; ADropAddr 0] ▷ poll plain 0 ▷ calls [APollJoin 0] in
  finished 0 y = true ∧ conn 1 y = Some false ∧ joined 0 y = true.
Proof. vm_compute. repeat split; reflexivity. Qed.

(** basic.rs:114-128 [actor_stops_on_stop_self_message]. *)
Example actor_stops_on_stop_self_message :
  let y := new None ▷ spawn 0 ▷ poll (stops [0]) 0 ▷ calls ([ADowngrade 0; AJoin 1] ++ dsend 0 0) ▷ poll (stops [0]) 0 ▷ calls [APollJoin 0] in
  finished 0 y = true ∧ conn 1 y = Some false ∧ conn 0 y = Some false ∧ joined 0 y = true.
Proof. vm_compute. repeat split; reflexivity. Qed.

(** basic.rs:130-144 [actor_stops_on_stop_all_message]. *)
Example actor_stops_on_stop_all_message :
  let y := new None ▷ spawn 0 ▷ poll (stops_all [0]) 0 ▷ calls ([ADowngrade 0; AJoin 1] ++ dsend 0 0) ▷ poll (stops_all [0]) 0 ▷ calls [APollJoin 0] in
  finished 0 y = true ∧ conn 1 y = Some false ∧ conn 0 y = Some false ∧ joined 0 y = true.
Proof. vm_compute. repeat split; reflexivity. Qed.

(** basic.rs:146-157 [actor_stops_on_last_drop_of_address_even_if_not_yet_running]. *)
Example actor_stops_on_last_drop_even_if_not_yet_running :
  let y := new None ▷ calls [ADowngrade 0; AJoin 1; ADropAddr 0] ▷ spawn 0 ▷ poll plain 0 ▷ calls [APollJoin 0] in
  finished 0 y = true ∧ conn 1 y = Some false ∧ joined 0 y = true.
Proof. vm_compute. repeat split; reflexivity. Qed.

(** basic.rs:159-172 [actor_stops_on_stop_message_even_if_sent_before_started]. *)
Example actor_stops_on_stop_message_even_if_sent_before_started :
  let y := new None ▷ calls ([ADowngrade 0; AJoin 1] ++ dsend 0 0) ▷ spawn 0 ▷ poll (stops [0]) 0 ▷ calls [APollJoin 0] in
  finished 0 y = true ∧ conn 1 y = Some false ∧ conn 0 y = Some false ∧ joined 0 y = true.
Proof. vm_compute. repeat split; reflexivity. Qed.

(** basic.rs:174-185 [handle_left_messages]: nobody sends any more when the actor starts. *)
Example handle_left_messages :
  let y := new None ▷ calls (concat (map (λ f, dsend f 0) (seq 0 10)) ++ [ADropAddr 0]) ▷ spawn 0 ▷ poll plain 0 in
  finished 0 y = true ∧ length (handled all y) = 10.
Proof. vm_compute. repeat split; reflexivity. Qed.

(** basic.rs:187-232 [actor_can_be_restarted], second part: two actors, of which the first handles five messages and the
    [stop_all], each sent when the one before is answered; the second finds the [Shut] broadcast before the five messages that were sent later. *)
Example actor_can_be_restarted :
  let y := new None ▷ calls [AMbClone 0; AClone 0] ▷ spawn 1 ▷ spawn 0
             ▷ (λ y, fold_left (λ y f, calls (send 0 f) y ▷ poll (stops_all [5]) 0 ▷ calls [APollSend f]) (seq 0 6) y) in
  let z := calls (concat (map (λ f, dsend f 0) (seq 6 5))) y ▷ poll plain 1 in
  finished 0 y = true ∧ handled all y = map inl (seq 0 6) ∧ conn 0 y = Some true ∧
  finished 1 z = true ∧ handled all z = handled all y ∧ conn 0 z = Some false.
Proof. vm_compute. repeat split; reflexivity. Qed.

(** basic.rs:234-242 [single_actor_on_address_with_stop_self_returns_disconnected_on_stop]. *)
Example single_actor_on_address_with_stop_self :
  let y := new None ▷ spawn 0 ▷ calls (dsend 0 0) ▷ poll (stops [0]) 0 ▷ calls [AJoin 0; APollJoin 0] in
  finished 0 y = true ∧ joined 0 y = true ∧ conn 0 y = Some false.
Proof. vm_compute. repeat split; reflexivity. Qed.

(** basic.rs:244-257 [two_actors_on_address_with_stop_self]. *)
Example two_actors_on_address_with_stop_self :
  let h := stops [0; 1] in
  let y := new None ▷ calls [AMbClone 0] ▷ spawn 1 ▷ spawn 0 ▷ calls (send 0 0) ▷ poll h 0 ▷ poll h 1 ▷ calls [APollSend 0] in
  let z := calls (send 0 1) y ▷ poll h 0 ▷ poll h 1 ▷ calls [APollSend 1] in
  ready 0 y = true ∧ conn 0 y = Some true ∧ ready 1 z = true ∧ conn 0 z = Some false.
Proof. vm_compute. repeat split; reflexivity. Qed.

(** basic.rs:259-272 [two_actors_on_address_with_stop_self_context_alive]: a mailbox is kept. *)
Example two_actors_on_address_with_stop_self_context_alive :
  let h := stops [0; 1] in
  let y := new None ▷ calls [AMbClone 0; AMbClone 0] ▷ spawn 1 ▷ spawn 2 ▷ calls (send 0 0) ▷ poll h 0 ▷ poll h 1 ▷ calls [APollSend 0] in
  let z := calls (send 0 1) y ▷ poll h 0 ▷ poll h 1 ▷ calls [APollSend 1] in
  ready 0 y = true ∧ conn 0 y = Some true ∧ ready 1 z = true ∧ conn 0 z = Some true ∧ finished 0 z = true ∧ finished 1 z = true.
Proof. vm_compute. repeat split; reflexivity. Qed.

(** basic.rs:373-413 [handle_order]: unicast messages 0 to 3 and broadcasts 0 to 3; the expected order is that of the
    priorities, and among the two of priority 4 the unicast message comes first. *)
Example handle_order :
  let y := new None ▷ spawn 0
             ▷ calls (dsend 0 0 ++ dsend 1 1 ++ dsend 2 2 ++ bcast 3 4 ++ bcast 4 5 ++ bcast 5 3 ++ dsend 6 4 ++ bcast 7 5 ++ [ADropAddr 0])
             ▷ poll plain 0 in
  finished 0 y = true ∧ handled all y = [inr 1; inr 3; inl 3; inr 0; inr 2; inl 2; inl 1; inl 0].
Proof. vm_compute. repeat split; reflexivity. Qed.

(** basic.rs:415-469 [waiting_sender_order]. *)
Example waiting_sender_order :
  let y0 := new (Some 1) ▷ calls (dsend 0 1 ++ dsend 1 1 ++ dsend 2 2) in
  let y1 := calls (yield 0 1 ++ [APollSend 1; APollSend 2]) y0 in
  let y2 := calls (bcast 3 3 ++ bcast 4 4 ++ bcast 5 5) y1 in
  let y3 := calls (yield 0 2 ++ [APollSend 4; APollSend 5]) y2 in
  ready 0 y0 = true ∧ pending 1 y0 = true ∧ pending 2 y0 = true ∧
  pending 1 y1 = true ∧ ready 2 y1 = true ∧
  ready 3 y2 = true ∧ pending 4 y2 = true ∧ pending 5 y2 = true ∧
  pending 4 y3 = true ∧ ready 5 y3 = true.
Proof. vm_compute. repeat split; reflexivity. Qed.

(** basic.rs:471-504 [set_priority_msg_channel]: the priority is given before or after [detach]. *)
Example set_priority_msg_channel :
  let y := new None ▷ spawn 0
             ▷ calls ([ASend 0; ADetach 0; APollSend 0] ++ dsend 1 1 ++ [ASend 0; ADetach 2; APriority 2 2; APollSend 2] ++ [ADropAddr 0])
             ▷ poll plain 0 in
  finished 0 y = true ∧ handled all y = [inl 2; inl 1; inl 0].
Proof. vm_compute. repeat split; reflexivity. Qed.

(** basic.rs:506-616 [broadcast_tail_advances_bound_1]: the task is Indlovu; Ngwevu uses the mailbox 0. *)
Example broadcast_tail_advances_bound_1 :
  let ind := poll plain 0 in
  let y0 := new (Some 1) ▷ calls [AMbClone 0] ▷ spawn 1 ▷ calls (bcast 0 0 ++ bcast 1 0) in
  let y1 := calls (ADropSend 1 :: bcast 2 0) y0 in
  let y2 := ind y1 ▷ (λ y, calls (yield 0 (length (hols (ch y)))) y) ▷ calls (bcast 3 0) in
  let y3 := calls [ADropSend 3; APollSend 2] y2 in
  let y4 := ind y3 ▷ (λ y, calls (yield 0 (length (hols (ch y)))) y) ▷ calls (bcast 4 0) in
  let y5 := calls (bcast 5 1 ++ bcast 6 2) y4 in
  let y6 := calls (yield 0 (length (hols (ch y5)))) y5 ▷ ind ▷ calls [APollSend 5; APollSend 6] in
  let y7 := calls (yield 0 (length (hols (ch y6)))) y6 ▷ ind ▷ calls [APollSend 5] in
  let y8 := calls [ABroadcast 0; APollSend 7] y7 in
  ready 0 y0 = true ∧ pending 1 y0 = true ∧ pending 2 y1 = true ∧ finished 0 y2 = false ∧ pending 3 y2 = true ∧ ready 2 y3 = true ∧
  ready 4 y4 = true ∧ pending 5 y5 = true ∧ pending 6 y5 = true ∧ pending 5 y6 = true ∧ ready 6 y6 = true ∧
  ready 5 y7 = true ∧ pending 7 y8 = true.
Proof. vm_compute. repeat split; reflexivity. Qed.

(** basic.rs:618-645 [broadcast_tail_advances_bound_2] and basic.rs:647-672
    [broadcast_tail_does_not_advance_unless_both_handle]. *)
Example broadcast_tail_bound_2 :
  let y := new (Some 2) ▷ calls [AMbClone 0] ▷ spawn 1 ▷ calls (bcast 0 0 ++ bcast 1 0) in
  let one := calls (yield 0 (length (hols (ch y)))) y ▷ calls (bcast 2 0) in
  let both := poll plain 0 y ▷ (λ y, calls (yield 0 (length (hols (ch y)))) y) ▷ calls (bcast 2 0) in
  ready 0 y = true ∧ ready 1 y = true ∧ pending 2 one = true ∧ ready 2 both = true.
Proof. vm_compute. repeat split; reflexivity. Qed.

(** basic.rs:706-792 [address_send_exercises_backpressure], the plain and the broadcast part: a broadcast is queued next
    to a unicast message although the capacity is 1. *)
Example address_send_exercises_backpressure :
  let y1 := new (Some 1) ▷ calls (dsend 0 0 ++ dsend 1 0) in
  let y2 := calls (ADropSend 1 :: yield 0 1 ++ dsend 2 0) y1 in
  let y3 := calls (bcast 3 2 ++ bcast 4 1) y2 in
  let y4 := calls (ADropSend 4 :: yield 0 2 ++ bcast 5 2) y3 in
  ready 0 y1 = true ∧ pending 1 y1 = true ∧ ready 2 y2 = true ∧ ready 3 y3 = true ∧ pending 4 y3 = true ∧ ready 5 y4 = true ∧
  handled all y4 = [inl 0; inr 0].
Proof. vm_compute. repeat split; reflexivity. Qed.

(** basic.rs:794-808 [address_debug]: the counts that are printed (ptr.rs:67-98). *)
Example address_debug :
  let y := new None ▷ calls [AClone 0; ADowngrade 1] in txc (ch y) = 2 ∧ rxc (ch y) = 1.
Proof. vm_compute. repeat split; reflexivity. Qed.

(** basic.rs:897-960 [timeout_returns_interrupted]: an actor that handles its messages with a timeout. *)
Example timeout_returns_interrupted :
  let y1 := new None ▷ calls (dsend 0 0 ++ yield 0 1) in
  let y2 := calls (send 0 1 ++ recv 0 2 ++ [ADispatch 2; ARun 2; APollSend 1; ADropHol 2; APollSend 1]) y1 in
  let y3 := calls (dsend 2 0 ++ yield 0 3) y2 in
  let y4 := calls ([ADowngrade 0; AJoin 0; ADropAddr 0] ++ yield 0 4 ++ [ADropHol 0; APollJoin 0; ASend 1; APollSend 3]) y3 in
  ready 0 y1 = true ∧ sent 1 y2 = Some OErrInterrupted ∧ ready 2 y3 = true ∧ flow_of 4 (log (ch y4)) = Some true ∧
  joined 0 y4 = true ∧ sent 3 y4 = Some OErrDisconnected.
Proof. vm_compute. repeat split; reflexivity. Qed.

(** basic.rs:962-967 [no_sender_returns_disconnected]. *)
Example no_sender_returns_disconnected :
  conn 1 (new None ▷ calls [ADropAddr 0; AMbAddress 0]) = Some false.
Proof. vm_compute. repeat split; reflexivity. Qed.

(** basic.rs:969-977 [receive_future_can_dispatch_in_one_poll], basic.rs:979-993
    [receive_future_can_dispatch_in_one_poll_after_it_has_been_polled]. *)
Example receive_future_can_dispatch_in_one_poll :
  let y := new None ▷ calls (dsend 0 0 ++ recv 0 1) in
  let z := new None ▷ calls (recv 0 1) in
  let z' := calls (dsend 0 0 ++ [APollRecv 1]) z in
  head (log (ch y)) = Some (EvRecv 1 (ToOne (UM 0 0))) ∧ head (log (ch z)) = Some (EvRecvPending 1) ∧
  head (log (ch z')) = Some (EvRecv 1 (ToOne (UM 0 0))).
Proof. vm_compute. repeat split; reflexivity. Qed.

(** basic.rs:829-864 [scoped_task]. *)
Definition returned (x : Scoped.scs) : option Scoped.tev := last (Scoped.sc_hist x).
Definition scalls (l : list op) (x : Scoped.scs) : Scoped.scs :=
  fold_left (λ x o, let y := Scoped.sc_step x (Scoped.SMain o) in
                    Scoped.SC (settle 200 (Scoped.sc_main y)) (Scoped.sc_tasks y) (Scoped.sc_hist y)) l x.
Definition sdo (l : list Scoped.sop) (x : Scoped.scs) : Scoped.scs := fold_left Scoped.sc_step l x.
Example scoped_task :
  (* completes when the address is connected *)
  returned (Scoped.sc_init None ▷ scalls [AJoin 0] ▷ sdo [Scoped.SScope 0; Scoped.SPoll 0; Scoped.SInner 0 (Some 7)]) =
    Some (Scoped.TReturn 0 (Some (Some 7))) ∧
  (* a weak address of an actor that stopped since its strong addresses are gone *)
  returned (Scoped.sc_init None ▷ scalls ([ADowngrade 0; ADropAddr 0] ++ yield 0 1 ++ [ADropHol 0; AJoin 1])
              ▷ sdo [Scoped.SScope 0; Scoped.SPoll 0; Scoped.SInner 0 (Some 7)]) = Some (Scoped.TReturn 0 (Some None)) ∧
  (* the mailbox is dropped before the first poll *)
  returned (Scoped.sc_init None ▷ scalls [AJoin 0; ADropHol 0] ▷ sdo [Scoped.SScope 0; Scoped.SPoll 0; Scoped.SInner 0 (Some 7)]) =
    Some (Scoped.TReturn 0 (Some None)) ∧
  (* the mailbox is dropped between two polls *)
  (let x := Scoped.sc_init None ▷ scalls [AJoin 0] ▷ sdo [Scoped.SScope 0; Scoped.SPoll 0; Scoped.SInner 0 None] in
   returned x = Some (Scoped.TReturn 0 None) ∧
   returned (x ▷ scalls [ADropHol 0] ▷ sdo [Scoped.SPoll 0]) = Some (Scoped.TReturn 0 (Some None))).
Proof. vm_compute. repeat split; reflexivity. Qed.

(** basic.rs:866-885 [test_addr_cmp_hash_eq]: handles 0 and 2 are the addresses of two channels, 4 is a weak and 5 a strong
    address of the first; 6 and 7 are message channels of them and 8 a weak message channel. *)
Example test_addr_cmp_hash_eq :
  let w := AddrEq.wrun AddrEq.start [AddrEq.WNew 10; AddrEq.WNew 20; AddrEq.WConv AddrEq.CDowngrade 0; AddrEq.WConv AddrEq.CClone 0;
             AddrEq.WConv AddrEq.CChannel 0; AddrEq.WConv AddrEq.CChannel 2; AddrEq.WConv AddrEq.CDowngrade 6] in
  let h i := default (AddrEq.HD 0 AddrEq.PRx false false) (AddrEq.handles w !! i) in
  let eq i j := AddrEq.addr_eq w (h i) (h j) in
  let same i j := AddrEq.same_actor w (h i) (h j) in
  length (AddrEq.handles w) = 9 ∧
  eq 0 2 = false ∧ eq 0 4 = false ∧ eq 0 5 = true ∧ same 0 0 = true ∧ same 0 4 = true ∧ same 0 2 = false ∧
  AddrEq.partial_cmp w (h 0) (h 4) = Some Gt ∧
  eq 6 6 = true ∧ eq 6 7 = false ∧ same 6 6 = true ∧ same 6 8 = true ∧ same 6 7 = false.
Proof. vm_compute. repeat split; reflexivity. Qed.

(** ptr.rs:318-368, the unit tests of the pointers that look at the counter. *)
Example ptr_counts :
  txc (ch (new None)) = 1 ∧ txc (ch (calls [AClone 0] (new None))) = 2 ∧ txc (ch (calls [ADropAddr 0] (new None))) = 0 ∧
  txc (ch (calls [ADowngrade 0] (new None))) = 1 ∧ txc (ch (calls [AEither 0; AClone 1] (new None))) = 3 ∧
  addrs (ch (calls [AEither 0] (new None))) !! 1 = Some (AD true true true).
Proof. vm_compute. repeat split; reflexivity. Qed.

(** message_channel.rs:435-480 [hashcode] and [partial_eq]: the address 0 of a first channel and its clone 2 become the
    message channels 3 and 5, of which 4 is a clone of 3; the address 6 of a second channel becomes 8. *)
Example message_channel_hash_eq :
  let w := AddrEq.wrun AddrEq.start [AddrEq.WNew 10; AddrEq.WConv AddrEq.CClone 0; AddrEq.WConv AddrEq.CChannel 2;
             AddrEq.WConv AddrEq.CClone 3; AddrEq.WConv AddrEq.CChannel 0; AddrEq.WNew 20; AddrEq.WConv AddrEq.CChannel 6] in
  let h i := default (AddrEq.HD 0 AddrEq.PRx false false) (AddrEq.handles w !! i) in
  length (AddrEq.handles w) = 9 ∧
  AddrEq.addr_hash w (h 3) = AddrEq.addr_hash w (h 4) ∧ AddrEq.addr_hash w (h 3) = AddrEq.addr_hash w (h 5) ∧
  AddrEq.addr_hash w (h 3) = [AddrEq.WUsize 10; AddrEq.WU8 1] ∧ AddrEq.addr_hash w (h 8) = [AddrEq.WUsize 20; AddrEq.WU8 1] ∧
  AddrEq.addr_eq w (h 3) (h 4) = true ∧ AddrEq.addr_eq w (h 3) (h 5) = true ∧ AddrEq.addr_eq w (h 3) (h 8) = false.
Proof. vm_compute. repeat split; reflexivity. Qed.
