(** Actors on executors: tasks that run lib.rs:226-245 [run] on mailboxes of the channel, next to any number of other
    calls.  A task is polled when it is new, when the waker of its latest pending poll was woken, and as long as it can
    continue.  The hooks [started] and [stopped] and the handlers are external: while one of them runs the environment may
    call anything, and when the task continues it has returned.  A task may also be dropped at any await point; a hook or
    handler that panics is the same, for unwinding drops what the task owns. *)
From stdpp Require Import base numbers list.
From Verif Require Import Prio Heap State Model.

(** Where a task is in [run] (lib.rs:226-237) and [yield_once] (lib.rs:240-245). *)
Inductive tstate :=
| TStart            (** awaiting [actor.started(&mailbox)], lib.rs:230 *)
| TLoop             (** at the head of the [while], lib.rs:234 *)
| TAwait (r : nat)  (** awaiting [mailbox.next()] and then [dispatch_to], lib.rs:244: the receive future, message and dispatch future number [r] *)
| TStop             (** awaiting [actor.stopped()], lib.rs:236 *)
| TDrop             (** returning: the mailbox is about to be dropped *)
| TDone.
(** A task owns the mailbox [t_mb] until it is done. *)
Record task := TK { t_mb : nat; t_st : tstate }.
Record sys := SY { ch : state; tk : list task }.

(** What the dispatch future number [r] returned (dispatch_future.rs:138). *)
Definition flow_of (r : nat) (l : list ev) : option bool :=
  match List.find (λ e, match e with EvFlow q _ => q =? r | _ => false end) l with Some (EvFlow _ b) => Some b | _ => None end.

(** The next thing a task does; [None]: it has to wait.  [v]: what the handler returns; 0 if [started] returns [Ok]. *)
Definition task_step (t : task) (v : nat) (s : state) : option (state * tstate) :=
  match t_st t with
  | TStart => Some (s, if v =? 0 then TLoop else TDrop)
  | TLoop => Some (step s (ANext (t_mb t)), TAwait (length (hols s)))
  | TAwait r =>
      match hols s !! r with
      | Some h =>
          match h_st h with
          | HRecvNew => Some (step s (APollRecv r), TAwait r)
          | HRecvWait _ => if existsb (Nat.eqb (h_wk h)) (wakes s) then Some (step s (APollRecv r), TAwait r) else None
          | HMsg _ => Some (step s (ADispatch r), TAwait r)
          | HDispNew _ => Some (step s (ARun r), TAwait r)
          | HRun _ => Some (step s (AFinish r v), TAwait r)
          | HGone => match flow_of r (log s) with Some true => Some (s, TStop) | Some false => Some (s, TLoop) | None => None end
          | HRecvBusy | HMailbox => None
          end
      | None => None
      end
  | TStop => Some (s, TDrop)
  | TDrop => Some (step s (ADropHol (t_mb t)), TDone)
  | TDone => None
  end.

(** The future of [run] is dropped while it awaits something, or the hook or handler it awaits panics (lib.rs:230,236,244;
    dispatch_future.rs:132-138: the future of the handler was moved out of the dispatch future and is dropped by the
    unwinding).  What it awaits is dropped here, its mailbox in the next step of the task.  [None]: the task does not
    await anything. *)
Definition task_cancel (t : task) (s : state) : option (state * tstate) :=
  match t_st t with
  | TStart | TStop => Some (s, TDrop)
  | TAwait r =>
      match hols s !! r with
      | Some h => match h_st h with HRecvWait _ | HRun _ => Some (step s (ADropHol r), TDrop) | _ => None end
      | None => None
      end
  | _ => None
  end.

(** The object number [r] belongs to a task. *)
Definition of_task (y : sys) (r : nat) : bool :=
  existsb (λ t, match t_st t with TDone => false | TAwait q => (q =? r) || (t_mb t =? r) | _ => t_mb t =? r end) (tk y).
(** A call that somebody else can make: it does not poll, consume or drop what a task owns.  Through the references that
    [started] and the handlers get, mailboxes may be cloned and further receive futures made. *)
Definition foreign (y : sys) (o : op) : bool :=
  match o with
  | ADropHol r | APollRecv r | ADispatch r | ARun r | AFinish r _ => negb (of_task y r)
  | _ => true
  end.

Inductive sop :=
| SCall (o : op)           (** somebody makes a call, or a call in progress performs its next action *)
| SSpawn (h : nat)         (** a task begins to run an actor on the mailbox number [h] *)
| STask (i : nat) (v : nat) (** the task number [i] continues *)
| SCancel (i : nat).       (** the task number [i] is dropped, or panics *)
Definition sys_step (y : sys) (l : sop) : sys :=
  match l with
  | SCall o => if foreign y o then SY (step (ch y) o) (tk y) else y
  | SSpawn h =>
      match hols (ch y) !! h with
      | Some (HO _ HMailbox _ _) => if of_task y h then y else SY (ch y) (tk y ++ [TK h TStart])
      | _ => y
      end
  | STask i v =>
      match tk y !! i with
      | Some t => match task_step t v (ch y) with Some (s, st) => SY s (<[i := TK (t_mb t) st]> (tk y)) | None => y end
      | None => y
      end
  | SCancel i =>
      match tk y !! i with
      | Some t => match task_cancel t (ch y) with Some (s, st) => SY s (<[i := TK (t_mb t) st]> (tk y)) | None => y end
      | None => y
      end
  end.
Definition sys_init (c : option nat) : sys := SY (init c) [].
Definition sys_run (y : sys) (l : list sop) : sys := fold_left sys_step l y.
