(** The channel, function by function, as an interleaving machine.  Line numbers
    refer to /repo/xtra/src.  No proofs in this file. *)
From stdpp Require Import base numbers list.
From Verif Require Import Prio Heap State.

(** ** Small helpers *)

(** Append an event to the history (ghost). *)
Definition emit (e : ev) (s : state) : state := set_log (e :: log s) s.

(** std [Waker::wake] on an optional waker. *)
Definition wake (w : option waker) (s : state) : state :=
  match w with Some k => set_wakes (k :: wakes s) s | None => s end.

(** std [Weak::strong_count(..) > 0] on an [Arc<BroadcastQueue>]. *)
Definition bq_live (s : state) (b : nat) : bool :=
  match bqueues s !! b with Some q => 0 <? bq_refs q | None => false end.

(** Contents of a broadcast queue. *)
Definition bq_get (s : state) (b : nat) : list bmsg :=
  match bqueues s !! b with Some q => bq_heap q | None => [] end.

(** Replace the contents of a broadcast queue. *)
Definition bq_put (b : nat) (h : list bmsg) (s : state) : state :=
  match bqueues s !! b with
  | Some q => set_bqueues (<[b := BQ (bq_refs q) h]> (bqueues s)) s
  | None => s
  end.

(** catty: drop of the sending half of a reply channel without sending
    (send_future.rs:361 maps it to [Interrupted]). *)
Definition close_reply (m : nat) (s : state) : state :=
  match reps s !! m with
  | Some (RP rx (REmpty w)) => wake w (set_reps (<[m := RP rx RClosed]> (reps s)) s)
  | _ => s
  end.

(** Drop of a unicast envelope (envelope.rs:41-47): its [result_sender] goes too. *)
Definition drop_umsg (y : why) (m : umsg) (s : state) : state :=
  emit (EvDrop (um_id m) y) (close_reply (um_id m) s).

(** Drop of a list of envelopes. *)
Definition drop_umsgs (y : why) (l : list umsg) (s : state) : state :=
  fold_left (λ s m, drop_umsg y m s) l s.

(** ** Waiting senders (waiting_sender.rs), for one kind of message *)
Section waiting.
  Context {A : Type} (key : A → prio).

  (** waiting_sender.rs:24-26 [Handle::is_active]. *)
  Definition cell_active (cs : list (wcell A)) (c : nat) : bool :=
    match cs !! c with Some x => wc_alive x | None => false end.

  (** waiting_sender.rs:71-79 [Handle::priority]. *)
  Definition cell_prio (cs : list (wcell A)) (c : nat) : option prio :=
    match cs !! c with
    | Some (WC true (WActive _ m)) => Some (key m)
    | _ => None
    end.

  (** waiting_sender.rs:31-45 [Handle::take_message]: the message, and the waker
      to wake. *)
  Definition take_message (cs : list (wcell A)) (c : nat)
    : list (wcell A) * option (A * option waker) :=
    match cs !! c with
    | Some (WC true (WActive w m)) => (<[c := WC true WDelivered]> cs, Some (m, w))
    | Some (WC true _) => (<[c := WC true WDelivered]> cs, None)
    | _ => (cs, None)
    end.

  (** std [Iterator::max_by_key] over the enumerated handles: position of the last
      element with a maximal key.  [i] is the position of the head of the list,
      [best] the best so far. *)
  Fixpoint max_pos (ks : list (option prio)) (i : nat) (best : option (nat * option prio))
    : option (nat * option prio) :=
    match ks with
    | [] => best
    | k :: ks =>
        max_pos ks (S i)
          (match best with
           | Some (j, kj) => match oprio_cmp kj k with Gt => best | _ => Some (i, k) end
           | None => Some (i, k)
           end)
    end.

  (** chan.rs:427-442 [find_remove_highest_priority]: new queue, removed handle. *)
  Definition find_remove (cs : list (wcell A)) (ws : list nat) : list nat * option nat :=
    let ws' := List.filter (cell_active cs) ws in
    match max_pos (map (cell_prio cs) ws') 0 None with
    | Some (i, _) => (delete i ws', ws' !! i)
    | None => (ws', None)
    end.

  (** chan.rs:396-414 [try_take_waiting_*_message]: every iteration removes a
      handle, so [S (length ws)] iterations are always enough. *)
  Fixpoint try_take (fuel : nat) (cs : list (wcell A)) (ws : list nat)
    : list (wcell A) * list nat * option (A * option waker) :=
    match fuel with
    | 0 => (cs, ws, None)
    | S n =>
        match find_remove cs ws with
        | (ws', None) => (cs, ws', None)
        | (ws', Some c) =>
            match take_message cs c with
            | (cs', Some r) => (cs', ws', Some r)
            | (cs', None) => try_take n cs' ws'
            end
        end
    end.
End waiting.

(** waiting_sender.rs:48-65 [Drop for Handle], for the handles of unicast sends
    (with the envelope that goes down with the cell). *)
Definition close_handle1 (s : state) (c : nat) : state :=
  match cells1 s !! c with
  | Some (WC true (WActive w m)) =>
      drop_umsg DClosed m (wake w (set_cells1 (<[c := WC true WClosed]> (cells1 s)) s))
  | _ => s
  end.

(** waiting_sender.rs:48-65 [Drop for Handle], for the handles of broadcasts. *)
Definition close_handleA (s : state) (c : nat) : state :=
  match cellsA s !! c with
  | Some (WC true (WActive w m)) =>
      wake w (set_cellsA (<[c := WC true WClosed]> (cellsA s)) s)
  | _ => s
  end.

(** ** Waiting receivers (waiting_receiver.rs) *)

(** catty [Sender::send], as used by waiting_receiver.rs:20-46: fails iff the
    receiving half is gone. *)
Definition one_send (o : nat) (c : ctrl) (s : state) : state * bool :=
  match ones s !! o with
  | Some (ON true (OEmpty w)) => (wake w (set_ones (<[o := ON true (OFull c)]> (ones s)) s), true)
  | _ => (s, false)
  end.

(** ** Inner (chan.rs:305-425) *)

(** chan.rs:421-424 *)
Definition unicast_full (s : state) : bool :=
  match cap s with None => false | Some c => c <=? length (uq s) end.

(** chan.rs:416-419 *)
Definition broadcast_full (s : state) : bool :=
  match cap s with None => false | Some c => c <=? tail s end.

(** chan.rs:357-367 *)
Definition longest_broadcast_queue (s : state) : nat :=
  fold_left (λ n b, if bq_live s b then max n (length (bq_get s b)) else n) (bqs s) 0.

(** chan.rs:385-394 [try_fulfill_receiver], iterating over the list of handles:
    remaining handles and whether the message was handed over. *)
Fixpoint fulfill (ws : list nat) (m : umsg) (s : state) : state * bool :=
  match ws with
  | [] => (set_wrx [] s, false)
  | o :: ws =>
      match one_send o (CNewMsg m) s with
      | (s', true) => (set_wrx ws s', true)
      | (s', false) => fulfill ws m s'
      end
  end.

(** chan.rs:385-394 [try_fulfill_receiver]. *)
Definition try_fulfill_receiver (m : umsg) (s : state) : state * bool := fulfill (wrx s) m s.

(** chan.rs:396-404 [try_take_waiting_unicast_message]; being taken counts as
    acceptance of the message (ghost event). *)
Definition take_waiting1 (s : state) : state * option umsg :=
  let '(cs, ws, r) := try_take um_prio (S (length (ws1 s))) (cells1 s) (ws1 s) in
  let s1 := set_ws1 ws (set_cells1 cs s) in
  match r with
  | Some (m, w) => (emit (EvAccept (um_id m)) (wake w s1), Some m)
  | None => (s1, None)
  end.

(** chan.rs:406-414 [try_take_waiting_broadcast_message]. *)
Definition take_waitingA (s : state) : state * option bmsg :=
  let '(cs, ws, r) := try_take bm_prio (S (length (wsA s))) (cellsA s) (wsA s) in
  let s1 := set_wsA ws (set_cellsA cs s) in
  match r with
  | Some (m, w) => (wake w s1, Some m)
  | None => (s1, None)
  end.

(** std: [unicast_queue.push(ByPriority(m))] (chan.rs:130, 333, 293). *)
Definition push_unicast (m : umsg) (s : state) : state :=
  set_uq (heap_push um_prio m (uq s)) s.

(** chan.rs:328-338 [pop_unicast]. *)
Definition pop_unicast (s : state) : state * option umsg :=
  match heap_pop um_prio (uq s) with
  | None => (s, None)
  | Some (m, h) =>
      let s1 := set_uq h s in
      if unicast_full s1 then (s1, Some m)
      else match take_waiting1 s1 with
           | (s2, Some m2) => (push_unicast m2 s2, Some m)
           | (s2, None) => (s2, Some m)
           end
  end.

(** chan.rs:369-383 [send_broadcast]. *)
Definition send_broadcast (m : bmsg) (s : state) : state :=
  let live := List.filter (bq_live s) (bqs s) in
  let s1 := fold_left (λ s b, bq_put b (heap_push bm_prio m (bq_get s b)) s) live s in
  let s2 := set_bqs live s1 in
  let s3 := fold_left (λ s o, fst (one_send o CNewBroadcast s)) (wrx s2) (set_wrx [] s2) in
  emit (EvBcast m live) (set_tail (S (tail s3)) s3).

(** chan.rs:340-355 [pop_broadcast] on the queue [b]. *)
Definition pop_broadcast (b : nat) (s : state) : state * option bmsg :=
  match heap_pop bm_prio (bq_get s b) with
  | None => (s, None)
  | Some (m, h) =>
      let s1 := bq_put b h s in
      let s2 := set_tail (longest_broadcast_queue s1) s1 in
      if broadcast_full s2 then (s2, Some m)
      else match take_waitingA s2 with
           | (s3, Some m2) => (send_broadcast m2 s3, Some m)
           | (s3, None) => (s3, Some m)
           end
  end.

(** ** Objects of the program *)

(** Change the state of a receiver-side object. *)
Definition set_hst (r : nat) (x : hstate) (s : state) : state :=
  match hols s !! r with
  | Some h => set_hols (<[r := HO (h_bq h) x (h_run h) (h_wk h)]> (hols s)) s
  | None => s
  end.

(** Change the state of a send future. *)
Definition set_sst (f : nat) (x : sst) (s : state) : state :=
  match sfs s !! f with
  | Some h => set_sfs (<[f := SF x (sf_mode h) (sf_live h) (sf_wk h)]> (sfs s)) s
  | None => s
  end.

(** A receive future completes with [a] (recv_future.rs:147-151 and 165-169). *)
Definition deliver (r : nat) (a : amsg) (s : state) : state :=
  emit (EvRecv r a) (set_hst r (HMsg a) s).

(** A poll of a send future returns. *)
Definition send_out (f : nat) (x : sst) (o : sout) (s : state) : state :=
  emit (EvSend f o) (set_sst f x s).

(** Poll of a reply channel with waker [w] (send_future.rs:357-362): new state
    and result. *)
Definition poll_reply (m : nat) (w : waker) (s : state) : state * sout :=
  match reps s !! m with
  | Some (RP rx (REmpty _)) => (set_reps (<[m := RP rx (REmpty (Some w))]> (reps s)) s, OPending)
  | Some (RP rx (RVal v)) => (set_reps (<[m := RP rx RTaken]> (reps s)) s, OValue v)
  | Some (RP _ RClosed) => (s, OErrInterrupted)
  | _ => (s, OPanic)
  end.

(** Drop of a sender pointer (ptr.rs:104-106, 237-302): counts only if strong. *)
Definition tx_drop (strong : bool) : list micro := if strong then [UTxDec] else [].

(** Drop of a receiver-side object's pointer and queue, in field order
    (mailbox.rs:12-13, recv_future.rs:33-34, 80-81). *)
Definition rx_drop (b : nat) : list micro := [URxDec; UBqRel b].

(** Drop of the message of a send (broadcast envelopes have no observable drop). *)
Definition payload_drop (p : payload) (y : why) : list micro :=
  match p with PU m => [UDropMsg m y] | PB _ => [] end.

(** Drop of a received message. *)
Definition amsg_drop (a : amsg) (y : why) : list micro :=
  match a with ToOne m => [UDropMsg m y] | _ => [] end.

(** ** One atomic action: new state, and what the call still has to do first *)

(** A panic inside a poll of a receive future unwinds, dropping its pointers. *)
Definition panic_recv (r b : nat) (s : state) : state * list micro :=
  (emit EvPanic (set_hst r HGone s), rx_drop b).

(** A panic inside a poll of a send future. *)
Definition panic_send (f : nat) (s : state) : state * list micro :=
  (emit EvPanic (send_out f SFin OPanic s), []).

(** recv_future.rs:139-158 with chan.rs:161-197 [try_recv] on the queue [b]. *)
Definition exec_try_recv (r b : nat) (s : state) : state * list micro :=
  let bp := option_map bm_prio (heap_peek (bq_get s b)) in
  let sp := option_map um_prio (heap_peek (uq s)) in
  match oprio_cmp sp bp, sp with
  | (Gt | Eq), Some _ =>
      match pop_unicast s with
      | (s', Some m) => (deliver r (ToOne m) s', [])
      | (s', None) => panic_recv r b s'
      end
  | Lt, _ =>
      match pop_broadcast b s with
      | (s', Some m) => (deliver r (ToAll m) s', [])
      | (s', None) => panic_recv r b s'
      end
  | _, _ =>
      if txc s =? 0 then (deliver r Shut s, [])
      else
        let o := length (ones s) in
        (set_wrx (wrx s ++ [o]) (set_ones (ones s ++ [ON true (OEmpty None)]) s),
         [UPollOne r o])
  end.

(** recv_future.rs:159-176 with waiting_receiver.rs:75-96: one poll of the
    one-shot channel of a waiting receive future. *)
Definition exec_poll_one (r b o : nat) (wk : waker) (s : state) : state * list micro :=
  match ones s !! o with
  | Some (ON rx (OEmpty _)) =>
      (emit (EvRecvPending r)
         (set_hst r (HRecvWait o) (set_ones (<[o := ON rx (OEmpty (Some wk))]> (ones s)) s)), [])
  | Some (ON _ (OFull c)) =>
      let s1 := set_ones (<[o := ON false OTaken]> (ones s)) s in
      match c with
      | CNewMsg m => (deliver r (ToOne m) s1, [])
      | CShutdown => (deliver r Shut s1, [])
      | CNewBroadcast => (s1, [UNextBc r])
      end
  | Some (ON _ OClosed) => (set_ones (<[o := ON false OClosed]> (ones s)) s, [UTryRecv r])
  | _ => panic_recv r b s
  end.

(** chan.rs:115-132 and 147-158: the lock-protected part of a send.  The sender
    pointer is dropped when the call returns (send_future.rs:189, 221). *)
Definition exec_send_lock (f : nat) (p : payload) (k : bool) (s : state) : state * list micro :=
  match p with
  | PU m =>
      match try_fulfill_receiver m s with
      | (s1, true) => (emit (EvAccept (um_id m)) s1, tx_drop k ++ [USendOk f])
      | (s1, false) =>
          if unicast_full s1 then
            let c := length (cells1 s1) in
            (emit (EvBlocked (um_id m))
               (set_ws1 (ws1 s1 ++ [c]) (set_cells1 (cells1 s1 ++ [WC true (WActive None m)]) s1)),
             tx_drop k ++ [USendCell1 f c])
          else (emit (EvAccept (um_id m)) (push_unicast m s1), tx_drop k ++ [USendOk f])
      end
  | PB m =>
      if broadcast_full s then
        let c := length (cellsA s) in
        (set_wsA (wsA s ++ [c]) (set_cellsA (cellsA s ++ [WC true (WActive None m)]) s),
         tx_drop k ++ [USendCellA f c])
      else (send_broadcast m s, tx_drop k ++ [USendOk f])
  end.

(** send_future.rs:194-203 with waiting_sender.rs:85-96. *)
Definition exec_send_cell1 (f c : nat) (wk : waker) (s : state) : state * list micro :=
  match cells1 s !! c with
  | Some (WC l (WActive _ m)) =>
      (send_out f (SWait c) OPending
         (set_cells1 (<[c := WC l (WActive (Some wk) m)]> (cells1 s)) s), [])
  | Some (WC _ WDelivered) => (set_cells1 (<[c := WC false WDelivered]> (cells1 s)) s, [USendOk f])
  | Some (WC _ WClosed) => (set_cells1 (<[c := WC false WClosed]> (cells1 s)) s, [USendErr f])
  | None => panic_send f s
  end.

(** send_future.rs:226-235 with waiting_sender.rs:85-96. *)
Definition exec_send_cellA (f c : nat) (wk : waker) (s : state) : state * list micro :=
  match cellsA s !! c with
  | Some (WC l (WActive _ m)) =>
      (send_out f (SWait c) OPending
         (set_cellsA (<[c := WC l (WActive (Some wk) m)]> (cellsA s)) s), [])
  | Some (WC _ WDelivered) => (set_cellsA (<[c := WC false WDelivered]> (cellsA s)) s, [USendOk f])
  | Some (WC _ WClosed) => (set_cellsA (<[c := WC false WClosed]> (cellsA s)) s, [USendErr f])
  | None => panic_send f s
  end.

(** The message has been handed to the channel: send_future.rs:311-317 (detached:
    resolve to the receiver), 330-334 (poll the reply), 344 (broadcast). *)
Definition exec_send_ok (f : nat) (sf : sfut) (s : state) : state * list micro :=
  match sf_mode sf with
  | MBroadcast => (send_out f SFin OOk s, [])
  | MReturn m => (s, [UReplyPoll f m])
  | MDetached (Some m) =>
      let x := length (rcvs s) in
      (emit (EvSend f (OReceiver x))
         (set_rcvs (rcvs s ++ [RC m XIdle true 0])
            (set_sfs (<[f := SF SFin (MDetached None) (sf_live sf) (sf_wk sf)]> (sfs s)) s)), [])
  | MDetached None => panic_send f s
  end.

(** chan.rs:244-259 [shutdown_waiting_senders]. *)
Definition exec_rx_shutdown (s : state) : state :=
  let s1 := fold_left (λ s l, if ls_notified l then s else wake (ls_wk l) s) (lsts s) s in
  let s2 := set_lsts (map (λ l, LS true (if ls_notified l then ls_wk l else None)) (lsts s1)) s1 in
  let s3 := drop_umsgs DCleared (uq s2) (set_uq [] s2) in
  let s4 := set_bqs [] s3 in
  let s5 := fold_left close_handle1 (ws1 s4) (set_ws1 [] s4) in
  fold_left close_handleA (wsA s5) (set_wsA [] s5).

(** waiting_receiver.rs:63-68 [cancel] and recv_future.rs:124-129. *)
Definition exec_cancel (o : nat) (s : state) : state * list micro :=
  match ones s !! o with
  | Some (ON rx (OFull c)) =>
      (set_ones (<[o := ON rx OTaken]> (ones s)) s,
       match c with CNewMsg m => [URequeue m] | _ => [] end)
  | _ => (s, [])
  end.

(** One atomic action. *)
Definition exec (u : micro) (s : state) : state * list micro :=
  match u with
  | UTxDec =>
      (* chan.rs:82-91 *)
      (set_txc (txc s - 1) s, if txc s =? 1 then [UTxShutdown] else [])
  | UTxShutdown =>
      (* chan.rs:214-226 *)
      (set_wrx [] s, map UTxNotify (wrx s))
  | UTxNotify o =>
      (* chan.rs:228-230 *)
      (fst (one_send o CShutdown s), [])
  | URxDec =>
      (* chan.rs:64-73 *)
      (set_rxc (rxc s - 1) s, if rxc s =? 1 then [URxShutdown] else [])
  | URxShutdown => (exec_rx_shutdown s, [])
  | UBqRel b =>
      (* drop of Arc<BroadcastQueue>: the queue is freed with its last owner *)
      match bqueues s !! b with
      | Some q =>
          (set_bqueues (<[b := BQ (bq_refs q - 1) (if bq_refs q =? 1 then [] else bq_heap q)]> (bqueues s)) s, [])
      | None => (s, [])
      end
  | UCloneReg =>
      (* chan.rs:94-103; the new mailbox exists from here on *)
      let b := length (bqueues s) in
      (set_hols (hols s ++ [HO b HMailbox true 0])
         (set_bqs (bqs s ++ [b]) (set_bqueues (bqueues s ++ [BQ 1 []]) s)), [])
  | USendLd1 f p k =>
      if rxc s =? 0 then (s, payload_drop p DDisconnected ++ tx_drop k ++ [USendErr f])
      else (s, [USendLd2 f p k])
  | USendLd2 f p k =>
      if txc s =? 0 then (s, payload_drop p DDisconnected ++ tx_drop k ++ [USendErr f])
      else (s, [USendLock f p k])
  | USendLock f p k => exec_send_lock f p k s
  | USendCell1 f c =>
      match sfs s !! f with Some sf => exec_send_cell1 f c (sf_wk sf) s | None => (s, []) end
  | USendCellA f c =>
      match sfs s !! f with Some sf => exec_send_cellA f c (sf_wk sf) s | None => (s, []) end
  | USendOk f =>
      match sfs s !! f with Some sf => exec_send_ok f sf s | None => (s, []) end
  | USendErr f => (send_out f SFin OErrDisconnected s, [])
  | UCellDrop1 c =>
      match cells1 s !! c with
      | Some (WC true (WActive _ m)) =>
          (set_cells1 (<[c := WC false WClosed]> (cells1 s)) s, [UDropMsg m DSendDropped])
      | Some (WC _ x) => (set_cells1 (<[c := WC false x]> (cells1 s)) s, [])
      | None => (s, [])
      end
  | UCellDropA c =>
      match cellsA s !! c with
      | Some (WC true (WActive _ m)) => (set_cellsA (<[c := WC false WClosed]> (cellsA s)) s, [])
      | Some (WC _ x) => (set_cellsA (<[c := WC false x]> (cellsA s)) s, [])
      | None => (s, [])
      end
  | URepDrop m =>
      match reps s !! m with
      | Some (RP _ x) => (set_reps (<[m := RP false x]> (reps s)) s, [])
      | None => (s, [])
      end
  | URcvPoll x =>
      match rcvs s !! x with
      | Some rc =>
          let '(s1, o) := poll_reply (rc_m rc) (rc_wk rc) s in
          let st := match o with OPending => XIdle | _ => XFin end in
          (emit (EvReceiver x o)
             (set_rcvs (<[x := RC (rc_m rc) st (rc_live rc) (rc_wk rc)]> (rcvs s1)) s1), [])
      | None => (s, [])
      end
  | UReplyPoll f m =>
      match sfs s !! f with
      | Some sf =>
          let '(s1, o) := poll_reply m (sf_wk sf) s in
          (send_out f (match o with OPending => SDone | _ => SFin end) o s1, [])
      | None => (s, [])
      end
  | UTryRecv r =>
      match hols s !! r with Some h => exec_try_recv r (h_bq h) s | None => (s, []) end
  | UPollOne r o =>
      match hols s !! r with Some h => exec_poll_one r (h_bq h) o (h_wk h) s | None => (s, []) end
  | UNextBc r =>
      (* waiting_receiver.rs:89-92; None: recv_future.rs:163-169, try again *)
      match hols s !! r with
      | Some h =>
          match pop_broadcast (h_bq h) s with
          | (s', Some m) => (deliver r (ToAll m) s', [])
          | (s', None) => (s', [UTryRecv r])
          end
      | None => (s, [])
      end
  | UCancel o => exec_cancel o s
  | URequeue m =>
      (* chan.rs:286-295 *)
      match try_fulfill_receiver m s with
      | (s1, true) => (s1, [])
      | (s1, false) => (push_unicast m s1, [])
      end
  | UOneDrop o =>
      match ones s !! o with
      | Some (ON _ (OFull c)) =>
          (set_ones (<[o := ON false OTaken]> (ones s)) s,
           match c with CNewMsg m => [UDropMsg m DWindow] | _ => [] end)
      | Some (ON _ x) => (set_ones (<[o := ON false x]> (ones s)) s, [])
      | None => (s, [])
      end
  | UReply m v =>
      (* envelope.rs:121-125; catty: fails if the receiving half is gone *)
      match reps s !! m with
      | Some (RP true (REmpty w)) => (wake w (set_reps (<[m := RP true (RVal v)]> (reps s)) s), [])
      | _ => (s, [])
      end
  | UDropMsg m y => (drop_umsg y m s, [])
  | UFlow r brk => (emit (EvFlow r brk) s, [])
  | UStopAll => (send_broadcast (BStop (nbm s)) (set_nbm (S (nbm s)) s), [])
  | UJoinLd1 l =>
      if rxc s =? 0 then (set_jhs (jhs s ++ [JH None true 0]) s, []) else (s, [UJoinLd2 l])
  | UJoinLd2 l =>
      (set_jhs (jhs s ++ [JH (if txc s =? 0 then None else Some l) true 0]) s, [])
  | UConnLd1 a =>
      if rxc s =? 0 then (emit (EvConn a false) s, []) else (s, [UConnLd2 a])
  | UConnLd2 a => (emit (EvConn a (negb (txc s =? 0))) s, [])
  end.

(** ** The API *)
Inductive op :=
| Step (t : nat)                    (** thread [t] performs its next atomic action *)
| AClone (a : nat) | ADowngrade (a : nat) | AEither (a : nat) | AUpgrade (a : nat)
| AConnected (a : nat) | ADropAddr (a : nat)
| ASend (a : nat) | ABroadcast (a : nat)
| APriority (f : nat) (n : N) | ADetach (f : nat) | APollSend (f : nat) | ADropSend (f : nat)
| APollRcv (x : nat) | ADropRcv (x : nat)
| AJoin (a : nat) | APollJoin (j : nat) | ADropJoin (j : nat)
| AMbAddress (h : nat) | AMbClone (h : nat) | ANext (h : nat)
| APollRecv (r : nat) | ADispatch (r : nat) | ARun (r : nat)
| AStopSelf (r : nat) | AStopAll (r : nat) | AFinish (r : nat) (v : nat)
| ADropHol (r : nat).

(** Begin a call. *)
Definition call (p : list micro) (s : state) : state := set_thr (thr s ++ [p]) s.

(** A usable [&Mailbox]: a mailbox, or [ctx.mailbox()] (context.rs:38) in a
    running handler. *)
Definition is_mailbox (x : hstate) : bool :=
  match x with HMailbox | HRun _ => true | _ => false end.

(** Replace a send future and begin a call on it. *)
Definition put_sf (f : nat) (x : sfut) (s : state) : state := set_sfs (<[f := x]> (sfs s)) s.

(** New address object. *)
Definition add_addr (strong either : bool) (s : state) : state :=
  set_addrs (addrs s ++ [AD strong either true]) (if strong then set_txc (S (txc s)) s else s).

(** The calls that destroy a send future in a given state, in field order
    (send_future.rs:27-30, 172-176). *)
Definition sf_drop (sf : sfut) : option (list micro) :=
  let tail :=
    match sf_mode sf with
    | MReturn m | MDetached (Some m) => [URepDrop m]
    | _ => []
    end in
  match sf_st sf with
  | SNew p k => Some (payload_drop p DSendDropped ++ tx_drop k ++ tail)
  | SWait c => Some ((match sf_mode sf with MBroadcast => UCellDropA c | _ => UCellDrop1 c end) :: tail)
  | SDone | SFin => Some tail
  | SBusy => None
  end.

(** The calls that destroy a receiver-side object in a given state. *)
Definition hol_drop (h : holder) : option (list micro) :=
  match h_st h with
  | HMailbox | HRecvNew => Some (rx_drop (h_bq h))
  | HRecvWait o => Some (UCancel o :: rx_drop (h_bq h) ++ [UOneDrop o])
  | HMsg a | HDispNew a => Some (amsg_drop a DUserMsg ++ rx_drop (h_bq h))
  | HRun a => Some (rx_drop (h_bq h) ++ amsg_drop a DUserRun)
  | HRecvBusy | HGone => None
  end.

(** One API call; calls that the type system or the contract of [Future] forbid
    do nothing. *)
Definition api (o : op) (s : state) : state :=
  match o with
  | Step _ => s
  | AClone a =>
      (* address.rs:272-276, ptr.rs:88-96 *)
      match addrs s !! a with
      | Some (AD k e true) => add_addr k e s
      | _ => s
      end
  | ADowngrade a =>
      (* address.rs:101-111, ptr.rs:48-53 *)
      match addrs s !! a with
      | Some (AD k e true) => add_addr false false s
      | _ => s
      end
  | AEither a =>
      (* address.rs:120-122, ptr.rs:80-85 *)
      match addrs s !! a with
      | Some (AD k e true) => add_addr k true s
      | _ => s
      end
  | AUpgrade a =>
      (* address.rs:91-93, ptr.rs:56-61, 130-156: the compare-and-swap loop is one
         atomic action *)
      match addrs s !! a with
      | Some (AD false false true) =>
          if txc s =? 0 then emit (EvUpgrade a None) s
          else emit (EvUpgrade a (Some (length (addrs s)))) (add_addr true false s)
      | _ => s
      end
  | AConnected a =>
      (* address.rs:154-156 *)
      match addrs s !! a with
      | Some (AD _ _ true) => call [UConnLd1 a] s
      | _ => s
      end
  | ADropAddr a =>
      match addrs s !! a with
      | Some (AD k e true) => call (tx_drop k) (set_addrs (<[a := AD k e false]> (addrs s)) s)
      | _ => s
      end
  | ASend a =>
      (* address.rs:183-192, send_future.rs:92-106, envelope.rs:50-61 *)
      match addrs s !! a with
      | Some (AD k _ true) =>
          let m := length (reps s) in
          emit (EvPrio m 0)
            (set_sfs (sfs s ++ [SF (SNew (PU (UM m 0)) k) (MReturn m) true 0])
               (set_reps (reps s ++ [RP true (REmpty None)])
                  (if k then set_txc (S (txc s)) s else s)))
      | _ => s
      end
  | ABroadcast a =>
      (* address.rs:199-205, send_future.rs:133-147 *)
      match addrs s !! a with
      | Some (AD k _ true) =>
          set_sfs (sfs s ++ [SF (SNew (PB (BM (nbm s) 0)) k) MBroadcast true 0])
            (set_nbm (S (nbm s)) (if k then set_txc (S (txc s)) s else s))
      | _ => s
      end
  | APriority f n =>
      (* send_future.rs:65-69, 382-404; a panic unwinds and drops the future *)
      match sfs s !! f with
      | Some (SF (SNew (PU m) k) md true w) =>
          emit (EvPrio (um_id m) n) (put_sf f (SF (SNew (PU (UM (um_id m) n)) k) md true w) s)
      | Some (SF (SNew (PB b) k) md true w) =>
          put_sf f (SF (SNew (PB (BM (bm_id b) n)) k) md true w) s
      | Some (SF x md true w) =>
          match sf_drop (SF x md true w) with
          | Some p => emit (EvUserPanic f) (call p (put_sf f (SF SFin md false w) s))
          | None => s
          end
      | _ => s
      end
  | ADetach f =>
      (* send_future.rs:50-57 *)
      match sfs s !! f with
      | Some (SF ((SNew _ _ | SWait _ | SDone) as x) (MReturn m) true w) =>
          put_sf f (SF x (MDetached (Some m)) true w) s
      | _ => s
      end
  | APollSend f =>
      (* send_future.rs:308-345 *)
      match sfs s !! f with
      | Some (SF x md true _) =>
          let s1 := set_nwk (S (nwk s)) (put_sf f (SF SBusy md true (nwk s)) s) in
          match x, md with
          | SNew p k, _ => call [USendLd1 f p k] s1
          | SWait c, MBroadcast => call [USendCellA f c] s1
          | SWait c, _ => call [USendCell1 f c] s1
          | SDone, MReturn m => call [UReplyPoll f m] s1
          | SDone, MDetached (Some _) => call [USendOk f] s1
          | _, _ => s
          end
      | _ => s
      end
  | ADropSend f =>
      match sfs s !! f with
      | Some (SF x md true w) =>
          match sf_drop (SF x md true w) with
          | Some p => call p (put_sf f (SF SFin md false w) s)
          | None => s
          end
      | _ => s
      end
  | APollRcv x =>
      match rcvs s !! x with
      | Some (RC m XIdle true _) =>
          call [URcvPoll x]
            (set_nwk (S (nwk s)) (set_rcvs (<[x := RC m XBusy true (nwk s)]> (rcvs s)) s))
      | _ => s
      end
  | ADropRcv x =>
      match rcvs s !! x with
      | Some (RC m ((XIdle | XFin) as k) true w) =>
          call [URepDrop m] (set_rcvs (<[x := RC m k false w]> (rcvs s)) s)
      | _ => s
      end
  | AJoin a =>
      (* address.rs:210-212, chan.rs:261-277: the listener is registered first *)
      match addrs s !! a with
      | Some (AD _ _ true) =>
          call [UJoinLd1 (length (lsts s))] (set_lsts (lsts s ++ [LS false None]) s)
      | _ => s
      end
  | APollJoin j =>
      (* address.rs:256-267 *)
      match jhs s !! j with
      | Some (JH l true _) =>
          let s1 := set_nwk (S (nwk s)) (set_jhs (<[j := JH l true (nwk s)]> (jhs s)) s) in
          match l with
          | None => emit (EvJoin j true) s1
          | Some l =>
              match lsts s !! l with
              | Some (LS false _) =>
                  emit (EvJoin j false) (set_lsts (<[l := LS false (Some (nwk s))]> (lsts s1)) s1)
              | _ => emit (EvJoin j true) (set_jhs (<[j := JH None true (nwk s)]> (jhs s1)) s1)
              end
          end
      | _ => s
      end
  | ADropJoin j =>
      match jhs s !! j with
      | Some (JH l true w) => set_jhs (<[j := JH l false w]> (jhs s)) s
      | _ => s
      end
  | AMbAddress h =>
      (* mailbox.rs:49-51 *)
      match hols s !! h with
      | Some x => if is_mailbox (h_st x) then add_addr false false s else s
      | None => s
      end
  | AMbClone h =>
      (* mailbox.rs:69-76 *)
      match hols s !! h with
      | Some x => if is_mailbox (h_st x) then call [UCloneReg] (set_rxc (S (rxc s)) s) else s
      | None => s
      end
  | ANext h =>
      (* mailbox.rs:54-56 *)
      match hols s !! h with
      | Some x =>
          if is_mailbox (h_st x) then
            match bqueues s !! h_bq x with
            | Some q =>
                set_hols (hols s ++ [HO (h_bq x) HRecvNew true 0])
                  (set_bqueues (<[h_bq x := BQ (S (bq_refs q)) (bq_heap q)]> (bqueues s))
                     (set_rxc (S (rxc s)) s))
            | None => s
            end
          else s
      | None => s
      end
  | APollRecv r =>
      (* recv_future.rs:136-183 *)
      match hols s !! r with
      | Some (HO b x k _) =>
          let s1 := set_nwk (S (nwk s)) (set_hols (<[r := HO b HRecvBusy k (nwk s)]> (hols s)) s) in
          match x with
          | HRecvNew => call [UTryRecv r] s1
          | HRecvWait o => call [UPollOne r o] s1
          | _ => s
          end
      | None => s
      end
  | ADispatch r =>
      (* dispatch_future.rs:19-25: the message becomes a dispatch future *)
      match hols s !! r with
      | Some (HO b (HMsg a) k w) => set_hols (<[r := HO b (HDispNew a) k w]> (hols s)) s
      | _ => s
      end
  | ARun r =>
      (* dispatch_future.rs:78-102, 134-137: first poll, or [span()].  A shutdown
         message drops the mailbox and completes at once (envelope.rs:226-230,
         251-257). *)
      match hols s !! r with
      | Some (HO b (HDispNew a) k w) =>
          match a with
          | Shut | ToAll (BStop _) =>
              call (rx_drop b ++ [UFlow r true]) (set_hols (<[r := HO b HGone k w]> (hols s)) s)
          | _ => emit (EvHandle r a) (set_hols (<[r := HO b (HRun a) true w]> (hols s)) s)
          end
      | _ => s
      end
  | AStopSelf r =>
      (* context.rs:13-15 *)
      match hols s !! r with
      | Some (HO b (HRun a) k w) => set_hols (<[r := HO b (HRun a) false w]> (hols s)) s
      | _ => s
      end
  | AStopAll r =>
      (* context.rs:30-35 *)
      match hols s !! r with
      | Some (HO b (HRun a) k w) =>
          if txc s =? 0 then s else call [UStopAll; UTxDec] (set_txc (S (txc s)) s)
      | _ => s
      end
  | AFinish r v =>
      (* envelope.rs:105-127 / 195-207: the handler returns [v]; the context (with
         its mailbox) is dropped before the reply is sent *)
      match hols s !! r with
      | Some (HO b (HRun a) k w) =>
          let s1 := set_hols (<[r := HO b HGone k w]> (hols s)) s in
          match a with
          | ToOne m =>
              call (rx_drop b ++ [UReply (um_id m) v; UFlow r (negb k)]) (emit (EvDone (um_id m) v) s1)
          | _ => call (rx_drop b ++ [UFlow r (negb k)]) s1
          end
      | _ => s
      end
  | ADropHol r =>
      match hols s !! r with
      | Some h =>
          match hol_drop h with
          | Some p => call p (set_hols (<[r := HO (h_bq h) HGone (h_run h) (h_wk h)]> (hols s)) s)
          | None => s
          end
      | None => s
      end
  end.

(** Thread [t] performs its next atomic action. *)
Definition do_step (t : nat) (s : state) : state :=
  match thr s !! t with
  | Some (u :: rest) =>
      let '(s1, new) := exec u s in set_thr (<[t := new ++ rest]> (thr s1)) s1
  | _ => s
  end.

(** Is anything left that owns an [Arc<Chan>]: an address, a receiver-side object,
    an unsent send future, or a call in progress?  (A call is taken to own one
    until it returns.) *)
Definition chan_owned (s : state) : bool :=
  existsb ad_live (addrs s)
  || existsb (λ h, match h_st h with HGone => false | _ => true end) (hols s)
  || existsb (λ f, sf_live f && match sf_st f with SNew _ _ => true | _ => false end) (sfs s)
  || existsb (λ p, match p with [] => false | _ => true end) (thr s).

(** catty: drop of the sending half of a waiting receiver's channel. *)
Definition close_one (s : state) (o : nat) : state :=
  match ones s !! o with
  | Some (ON rx (OEmpty w)) => wake w (set_ones (<[o := ON rx OClosed]> (ones s)) s)
  | _ => s
  end.

(** Drop of the last [Arc<Chan>]: the fields of [Inner] are dropped
    (chan.rs:305-313, in field order). *)
Definition free_chan (s : state) : state :=
  let s1 := fold_left close_handle1 (ws1 s) (set_ws1 [] s) in
  let s2 := fold_left close_handleA (wsA s1) (set_wsA [] s1) in
  let s3 := fold_left close_one (wrx s2) (set_wrx [] s2) in
  set_bqs [] (drop_umsgs DFreed (uq s3) (set_uq [] s3)).

(** Rust frees the channel as soon as nothing owns it. *)
Definition collect (s : state) : state := if chan_owned s then s else free_chan s.

(** One step of the whole system. *)
Definition step (s : state) (o : op) : state :=
  collect (match o with Step t => do_step t s | _ => api o s end).

(** chan.rs:31-38, mailbox.rs:18-43: [Mailbox::bounded] / [Mailbox::unbounded]. *)
Definition init (c : option nat) : state :=
  {| cap := c; txc := 1; rxc := 1; uq := []; ws1 := []; wsA := []; wrx := []; bqs := [0];
     tail := 0; cells1 := []; cellsA := []; ones := []; bqueues := [BQ 1 []]; reps := [];
     lsts := []; addrs := [AD true false true]; hols := [HO 0 HMailbox true 0]; sfs := [];
     rcvs := []; jhs := []; thr := []; nbm := 0; nwk := 0; wakes := []; log := [] |}.

(** An execution: any sequence of API calls and atomic actions of the calls in
    progress, on any number of threads. *)
Definition run (s : state) (l : list op) : state := fold_left step l s.

(** Single-threaded executions: every call runs to completion before the next one
    begins.  [settle] finishes the calls in progress ([fuel] actions at most). *)
Fixpoint first_busy (l : list (list micro)) (i : nat) : option nat :=
  match l with
  | [] => None
  | [] :: l => first_busy l (S i)
  | _ :: _ => Some i
  end.
Fixpoint settle (fuel : nat) (s : state) : state :=
  match fuel with
  | 0 => s
  | S n => match first_busy (thr s) 0 with Some t => settle n (step s (Step t)) | None => s end
  end.
Definition drive (s : state) (l : list op) : state :=
  fold_left (λ s o, settle 200 (step s o)) l s.

(** ** Observers *)

(** chan.rs:204-207 [Chan::len] (address.rs:162-164). *)
Definition chan_len (s : state) : nat := tail s + length (uq s).

(** chan.rs:199-202, the two loads performed with nothing in between. *)
Definition connected (s : state) : bool := negb (rxc s =? 0) && negb (txc s =? 0).
