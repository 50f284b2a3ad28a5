(** Model of the control loops of lib.rs: [run], [yield_once], [select], [join].

    An async function is a state machine that polls other futures.  What those futures
    answer is up to the environment: an [env] may answer every poll with anything,
    depending on everything that happened before, so that quantifying over [env] covers
    all mailboxes, actors, handlers, futures and schedules.  One [step] is one poll of an
    inner future (or the creation or destruction of a receive future).  After a poll that
    answered Pending the async function itself returns Pending and the next [step] happens
    when it is polled again.  Dropping the async function itself is not modelled. *)
From stdpp Require Import base numbers list.
From Coq Require Import Lia.

(** What happens, in order.  Answers: [None] is [Poll::Pending]. *)
Inductive aev :=
| PollStarted (r : option (option nat)) (** [Actor::started]: [Some None] = [Ok(())], [Some (Some v)] = [Err(v)] *)
| NewNext (n : nat)                     (** [mailbox.next()]: receive future number [n] *)
| PollNext (n : nat) (r : option nat)   (** it yields message [m] *)
| DropNext (n : nat)                    (** it is dropped before it completed *)
| PollDispatch (m : nat) (r : option bool) (** the dispatch of [m]: [Some true] = [Continue(())], [Some false] = [Break(())] *)
| PollStopped (r : option nat)          (** [Actor::stopped] *)
| PollFut (r : option nat).             (** the future given to [select] / [join] *)

Record env := Env {
  e_started : list aev → option (option nat);
  e_next : list aev → option nat;
  e_dispatch : list aev → option bool;
  e_stopped : list aev → option nat;
  e_fut : list aev → option nat
}.

(** ** [run] (lib.rs:226-237) with [yield_once] (lib.rs:240-245) *)
Inductive rstate :=
| RStart             (** awaiting [started] *)
| RLoop              (** at the head of the [while] *)
| RWait (n : nat)    (** awaiting [mailbox.next()] *)
| RDisp (m : nat)    (** awaiting [dispatch_to] *)
| RStopping          (** awaiting [stopped] *)
| RDone (v : nat).

(** Receive futures are numbered in the order of their creation. *)
Definition nexts (h : list aev) : nat :=
  length (List.filter (λ e, match e with NewNext _ => true | _ => false end) h).

Definition rstep (e : env) (x : rstate * list aev) : rstate * list aev :=
  let '(st, h) := x in
  match st with
  | RStart =>
      let r := e_started e h in
      (match r with None => RStart | Some None => RLoop | Some (Some v) => RDone v end, h ++ [PollStarted r])
  | RLoop => (RWait (nexts h), h ++ [NewNext (nexts h)])
  | RWait n =>
      let r := e_next e h in
      (match r with None => RWait n | Some m => RDisp m end, h ++ [PollNext n r])
  | RDisp m =>
      let r := e_dispatch e h in
      (match r with None => RDisp m | Some true => RLoop | Some false => RStopping end, h ++ [PollDispatch m r])
  | RStopping =>
      let r := e_stopped e h in
      (match r with None => RStopping | Some v => RDone v end, h ++ [PollStopped r])
  | RDone v => (RDone v, h)
  end.

(** ** [select] (lib.rs:301-328).  futures_util's [future::select] polls its first future,
    and if that is pending its second one, and gives back the unfinished one. *)
Inductive sstate :=
| SLoop                (** at the head of the [while], control flow is [Continue] *)
| SFut (n : nat)       (** in [future::select]: about to poll the future *)
| SNext (n : nat)      (** ... the future was pending: about to poll [next_msg] *)
| SLast (n r : nat)    (** the future returned [r]: at [next_msg.now_or_never()] *)
| SLastDisp (m r : nat)(** awaiting the dispatch of the message found there *)
| SDropN (n r : nat)   (** there was none: [next_msg] is dropped *)
| SDisp (m : nat)      (** awaiting the dispatch of a message *)
| SLeft (r : nat)      (** returned [Either::Left(r)] *)
| SRight.              (** returned [Either::Right(fut)] *)

Definition sstep (e : env) (x : sstate * list aev) : sstate * list aev :=
  let '(st, h) := x in
  match st with
  | SLoop => (SFut (nexts h), h ++ [NewNext (nexts h)])
  | SFut n =>
      let r := e_fut e h in
      (match r with None => SNext n | Some v => SLast n v end, h ++ [PollFut r])
  | SNext n =>
      let r := e_next e h in
      (match r with None => SFut n | Some m => SDisp m end, h ++ [PollNext n r])
  | SLast n v =>
      let r := e_next e h in
      (match r with None => SDropN n v | Some m => SLastDisp m v end, h ++ [PollNext n r])
  | SDropN n v => (SLeft v, h ++ [DropNext n])
  | SLastDisp m v =>
      (* lib.rs:313-315: the control flow is not looked at *)
      let r := e_dispatch e h in
      (match r with None => SLastDisp m v | Some _ => SLeft v end, h ++ [PollDispatch m r])
  | SDisp m =>
      let r := e_dispatch e h in
      (match r with None => SDisp m | Some true => SLoop | Some false => SRight end, h ++ [PollDispatch m r])
  | SLeft _ | SRight => (st, h)
  end.

(** ** [join] (lib.rs:377-387): [select], and then the future alone if it is not finished *)
Inductive jstate := JSel (st : sstate) | JFut | JDone (r : nat).

Definition jstep (e : env) (x : jstate * list aev) : jstate * list aev :=
  let '(st, h) := x in
  match st with
  | JSel (SLeft r) => (JDone r, h)
  | JSel SRight => (JFut, h)
  | JSel st => let '(st', h') := sstep e (st, h) in (JSel st', h')
  | JFut =>
      let r := e_fut e h in
      (match r with None => JFut | Some v => JDone v end, h ++ [PollFut r])
  | JDone r => (JDone r, h)
  end.

Fixpoint iter {A} (n : nat) (f : A → A) (x : A) : A := match n with 0 => x | S n => f (iter n f x) end.
Definition run_for (n : nat) (e : env) : rstate * list aev := iter n (rstep e) (RStart, []).
Definition select_for (n : nat) (e : env) : sstate * list aev := iter n (sstep e) (SLoop, []).
Definition join_for (n : nat) (e : env) : jstate * list aev := iter n (jstep e) (JSel SLoop, []).
