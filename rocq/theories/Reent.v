(** Model of the channel lock and of the destruction of messages that own addresses of the same actor.

    [Chan::chan] is a [std::sync::Mutex]: it is not reentrant.  [shutdown_waiting_senders] (chan.rs:244-259) clears the
    queue and the list of waiting senders while it holds the lock, so the destructors of these messages run under
    the lock; the destructor of a strong address calls [on_sender_dropped] (chan.rs:82-91), which locks again if the
    address was the last one.  The main model destroys the contents of messages after the call (messages are
    numbers there); this model has the lock, the counters, the queue and the contents of messages, and nothing
    else: no priorities, no broadcasts, no waiting receivers, no replies. *)
From stdpp Require Import base numbers list list_numbers.

(** A message, as far as its destructor matters: what it owns, in the order of destruction.  [OFuture b m] is an unsent
    send future with a strong or weak address, owning the message [m] (send_future.rs:172-176). *)
Inductive pmsg := PM (l : list pown)
with pown := OStrong | OWeak | OFuture (b : bool) (m : pmsg).

(** The number of strong addresses of the actor that the message owns, directly or not. *)
Fixpoint strongs (m : pmsg) : nat :=
  match m with
  | PM l => (fix go l := match l with [] => 0 | o :: l => own_strongs o + go l end) l
  end
with own_strongs (o : pown) : nat :=
  match o with OStrong => 1 | OWeak => 0 | OFuture b m => strongs m + (if b then 1 else 0) end.

(** Atomic actions. *)
Inductive rmicro :=
| RTxDec                (** chan.rs:84: a strong address is destroyed *)
| RTxShutdown           (** chan.rs:214-226: lock, take the waiting receivers, unlock *)
| RRxDec                (** chan.rs:66: a mailbox is destroyed *)
| RRxShutdown           (** chan.rs:245-248: lock ... *)
| RUnlock               (** chan.rs:259: ... and unlock, after the messages were destroyed *)
| RSendChk (m : pmsg) (b : bool) (** chan.rs:111: is the channel connected? [b]: the sending address is strong *)
| RSend (m : pmsg) (b : bool)    (** chan.rs:117-132 *)
| RRecv (keep : bool).  (** chan.rs:161-190; the handler destroys the message, or keeps the addresses that it owns *)

(** [r_lock]: the thread that holds the lock.  [r_ext]: strong addresses owned by the program (not by messages).
    [r_mbs]: mailboxes. *)
Record rstate := RS {
  r_lock : option nat; r_cap : option nat; r_txc : nat; r_rxc : nat; r_ext : nat; r_mbs : nat;
  r_queue : list pmsg; r_blocked : list pmsg; r_thr : list (list rmicro) }.

(** The destructor of a message destroys the addresses that it owns. *)
Definition drop_msg (m : pmsg) : list rmicro := replicate (strongs m) RTxDec.
Definition drop_tx (b : bool) : list rmicro := if b then [RTxDec] else [].
Definition r_full (s : rstate) : bool := match r_cap s with Some n => n <=? length (r_queue s) | None => false end.
Definition needs_lock (u : rmicro) : bool :=
  match u with RTxShutdown | RRxShutdown | RSend _ _ | RRecv _ => true | _ => false end.

(** One atomic action of thread [t]: the new state and what the thread does next. *)
Definition rexec (t : nat) (u : rmicro) (s : rstate) : rstate * list rmicro :=
  let '(RS k c tx rx e mb q bl th) := s in
  match u with
  | RTxDec => (RS k c (tx - 1) rx e mb q bl th, if tx - 1 =? 0 then [RTxShutdown] else [])
  | RTxShutdown => (s, [])
  | RRxDec => (RS k c tx (rx - 1) e mb q bl th, if rx - 1 =? 0 then [RRxShutdown] else [])
  | RRxShutdown =>
      (* chan.rs:253-258: the messages are destroyed with the lock held *)
      (RS (Some t) c tx rx e mb [] [] th, concat (drop_msg <$> q) ++ concat (drop_msg <$> bl) ++ [RUnlock])
  | RUnlock => (RS None c tx rx e mb q bl th, [])
  | RSendChk m b =>
      if (rx =? 0) || (tx =? 0) then (s, drop_msg m ++ drop_tx b) else (s, [RSend m b])
  | RSend m b =>
      if r_full s then (RS k c tx rx e mb q (bl ++ [m]) th, drop_tx b)
      else (RS k c tx rx e mb (q ++ [m]) bl th, drop_tx b)
  | RRecv keep =>
      match q with
      | [] => (s, [])
      | m :: q =>
          let e := if keep then e + strongs m else e in
          let p := if keep then [] else drop_msg m in
          match bl with
          | [] => (RS k c tx rx e mb q [] th, p)
          | m' :: bl => (RS k c tx rx e mb (q ++ [m']) bl th, p)
          end
      end
  end.
(** Thread [t] can perform its next action: it has one, and if it needs the lock, the lock is free. *)
Definition can_step (s : rstate) (t : nat) : bool :=
  match r_thr s !! t with
  | Some (u :: _) => negb (needs_lock u) || match r_lock s with None => true | _ => false end
  | _ => false
  end.
Definition set_rthr (l : list (list rmicro)) (s : rstate) : rstate :=
  RS (r_lock s) (r_cap s) (r_txc s) (r_rxc s) (r_ext s) (r_mbs s) (r_queue s) (r_blocked s) l.
Definition r_call (p : list rmicro) (s : rstate) : rstate := set_rthr (r_thr s ++ [p]) s.

Inductive rop :=
| RStep (t : nat)
| RClone                        (** clone a strong address *)
| RUpgrade                      (** upgrade a weak address (ptr.rs:130-156) *)
| RDropAddr                     (** drop a strong address *)
| RDoSend (m : pmsg) (b : bool) (** send [m] through a strong or weak address *)
| RMbClone | RMbDrop
| RDoRecv (keep : bool).        (** a mailbox receives and handles a message *)

Definition rstep (s : rstate) (o : rop) : rstate :=
  let '(RS k c tx rx e mb q bl th) := s in
  match o with
  | RStep t =>
      if can_step s t then
        match th !! t with
        | Some (u :: rest) => let '(s1, new) := rexec t u s in set_rthr (<[t := new ++ rest]> th) s1
        | _ => s
        end
      else s
  | RClone => if e =? 0 then s else RS k c (S tx) rx (S e) mb q bl th
  | RUpgrade => if tx =? 0 then s else RS k c (S tx) rx (S e) mb q bl th
  | RDropAddr => if e =? 0 then s else r_call [RTxDec] (RS k c tx rx (e - 1) mb q bl th)
  | RDoSend m b =>
      (* the addresses in the message and the one in the future are clones of an address of the program; without
         one, only a weak address can be used and the message owns no strong one *)
      if (e =? 0) && negb ((strongs m =? 0) && negb b) then s
      else r_call [RSendChk m b] (RS k c (tx + strongs m + if b then 1 else 0) rx e mb q bl th)
  | RMbClone => if mb =? 0 then s else RS k c tx (S rx) e (S mb) q bl th
  | RMbDrop => if mb =? 0 then s else r_call [RRxDec] (RS k c tx rx e (mb - 1) q bl th)
  | RDoRecv keep => if mb =? 0 then s else r_call [RRecv keep] s
  end.
(** mailbox.rs:24-42: one address, one mailbox. *)
Definition rinit (c : option nat) : rstate := RS None c 1 1 1 1 [] [] [].
Definition rrun (s : rstate) (l : list rop) : rstate := fold_left rstep l s.
