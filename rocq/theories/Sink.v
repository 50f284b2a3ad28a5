(** Model of [into_sink] (address.rs:239-245, message_channel.rs:157-159), on top of the channel model.

    [futures_util::sink::unfold((), move |(), message| self.send(message))] is a state machine: it holds a value
    (here [()]), or the future of the last [send], or nothing after an error.  [poll_ready], [poll_flush] and
    [poll_close] all poll the future if there is one; [start_send] takes the value and calls the closure, and panics
    if there is no value.  A poll of a send future is several atomic actions, between which other threads may do
    anything: the poll begins ([KFlush]) and returns ([KResult]) once the channel model reports its outcome. *)
From stdpp Require Import base numbers list.
From Verif Require Import State Model.

Inductive kst :=
| KIdle                (** [UnfoldState::Value] *)
| KSend (f : nat)      (** [UnfoldState::Future]: the send future [f], not being polled *)
| KPoll (f n : nat)    (** the same, being polled since the history had length [n] *)
| KEmpty               (** [UnfoldState::Empty] *)
| KGone.               (** the sink was dropped *)

(** What the sink does, in order. *)
Inductive kev :=
| KStart (m : nat)     (** [start_send] accepted an item as message [m] *)
| KPanic               (** [start_send] panicked *)
| KPending | KOk | KErr (o : sout). (** results of [poll_ready], [poll_flush], [poll_close] *)

(** The channel, the address owned by the closure, the state of the sink, the numbers of the messages fed (in
    order), and what the sink did (in order). *)
Record sks := SK { sk_main : state; sk_addr : nat; sk_st : kst; sk_fed : list nat; sk_hist : list kev }.

Inductive kop :=
| KMain (o : op)       (** anything else, on any thread *)
| KItem                (** [start_send] *)
| KFlush               (** a poll begins ... *)
| KResult              (** ... and returns *)
| KDrop.

(** The newest result of a poll of [f] in a history (newest event first). *)
Fixpoint newest_send (f : nat) (l : list ev) : option sout :=
  match l with
  | EvSend g o :: l => if g =? f then Some o else newest_send f l
  | _ :: l => newest_send f l
  | [] => None
  end.

Definition touches_addr (a : nat) (o : op) : bool :=
  match o with
  | AClone b | ADowngrade b | AEither b | AUpgrade b | AConnected b | ADropAddr b | ASend b | ABroadcast b | AJoin b => b =? a
  | _ => false
  end.
Definition touches_fut (f : nat) (o : op) : bool :=
  match o with APriority g _ | ADetach g | APollSend g | ADropSend g => g =? f | _ => false end.
(** Others can use neither the address nor the send future of the sink. *)
Definition touches_sink (x : sks) (o : op) : bool :=
  match sk_st x with
  | KGone => false
  | KSend f | KPoll f _ => touches_addr (sk_addr x) o || touches_fut f o
  | _ => touches_addr (sk_addr x) o
  end.

Definition sk_step (x : sks) (o : kop) : sks :=
  let '(SK s a st fed h) := x in
  match o with
  | KMain o => if touches_sink x o then x else SK (step s o) a st fed h
  | KItem =>
      match st with
      | KIdle => SK (step s (ASend a)) a (KSend (length (sfs s))) (fed ++ [length (reps s)]) (h ++ [KStart (length (reps s))])
      | KGone | KPoll _ _ => x
      | _ => SK s a st fed (h ++ [KPanic])
      end
  | KFlush =>
      match st with
      | KSend f => SK (step s (APollSend f)) a (KPoll f (length (log s))) fed h
      | KIdle | KEmpty => SK s a st fed (h ++ [KOk])
      | _ => x
      end
  | KResult =>
      match st with
      | KPoll f n =>
          match newest_send f (take (length (log s) - n) (log s)) with
          | None => x
          | Some OPending => SK s a (KSend f) fed (h ++ [KPending])
          | Some (OValue _) => SK s a KIdle fed (h ++ [KOk])
          | Some o => SK s a KEmpty fed (h ++ [KErr o])
          end
      | _ => x
      end
  | KDrop =>
      (* the closure with the address first, then the future; not while it is being polled *)
      match st with
      | KIdle | KEmpty => SK (step s (ADropAddr a)) a KGone fed h
      | KSend f => SK (step (step s (ADropAddr a)) (ADropSend f)) a KGone fed h
      | _ => x
      end
  end.
(** [into_sink] on the address [a] in the state [s], then the given operations. *)
Definition sk_new (s : state) (a : nat) : sks := SK s a KIdle [] [].
Definition sk_run (x : sks) (ops : list kop) : sks := fold_left sk_step ops x.
