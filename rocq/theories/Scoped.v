(** Model of scoped_task.rs: [scoped] and [ScopedTask::poll], on top of the channel model.

    The inner future is the environment: its answer to every poll is chosen freely (the
    argument of [SInner]), so that quantifying over the operations covers all inner futures
    and all schedules.  A poll of a task is two actions, between which other threads may do
    anything: the poll of the join handle, and, if that is pending, the poll of the inner future. *)
From stdpp Require Import base numbers list.
From Verif Require Import State Model.

(** A [ScopedTask] (scoped_task.rs:29-33): its join handle, and where it is. *)
Inductive tstate :=
| TReady   (** not being polled, not finished *)
| TInner   (** being polled; the join handle was pending *)
| TDone    (** finished *)
| TGone.   (** dropped *)
Record task := TK { tk_join : nat; tk_st : tstate }.

(** What happens to tasks, in order.  [None] as the result of a poll is [Poll::Pending]. *)
Inductive tev :=
| TNew (i j : nat)                        (** task [i] created, owning join handle [j] *)
| TPollJoin (i : nat) (b : bool)          (** its join handle was polled: resolved or not *)
| TPollInner (i : nat) (r : option nat)   (** its inner future was polled *)
| TReturn (i : nat) (r : option (option nat)). (** the poll of the task returned *)

(** The channel, the tasks, and what happened to them (in order). *)
Record scs := SC { sc_main : state; sc_tasks : list task; sc_hist : list tev }.

Inductive sop :=
| SMain (o : op)                 (** anything else, on any thread *)
| SScope (j : nat)               (** scoped_task.rs:9-20: [address.join()] returned [j]; it was not used yet *)
| SPoll (i : nat)                (** a poll of task [i] begins *)
| SInner (i : nat) (r : option nat) (** ... and polls the inner future *)
| SDropTask (i : nat).

(** Does a task own the join handle [j]? *)
Definition task_owns (l : list task) (j : nat) : bool := existsb (λ t, tk_join t =? j) l.
(** Operations of others cannot touch the join handle of a task. *)
Definition foreign (l : list task) (o : op) : bool :=
  match o with APollJoin j | ADropJoin j => negb (task_owns l j) | _ => true end.
(** Has the join handle resolved (address.rs:256-267)? *)
Definition join_resolved (s : state) (j : nat) : bool :=
  match jhs s !! j with Some (JH None _ _) => true | _ => false end.

(** Nobody polled the join handle [j]. *)
Definition never_polled (s : state) (j : nat) : bool :=
  forallb (λ e, match e with EvJoin k _ => negb (k =? j) | _ => true end) (log s).

Definition sc_step (x : scs) (o : sop) : scs :=
  let '(SC s l h) := x in
  match o with
  | SMain o => if foreign l o then SC (step s o) l h else x
  | SScope j =>
      match jhs s !! j with
      | Some (JH _ true _) => if task_owns l j || negb (never_polled s j) then x else SC s (l ++ [TK j TReady]) (h ++ [TNew (length l) j])
      | _ => x
      end
  | SPoll i =>
      (* scoped_task.rs:41-45 *)
      match l !! i with
      | Some (TK j TReady) =>
          let s1 := step s (APollJoin j) in
          if join_resolved s1 j then SC s1 (<[i := TK j TDone]> l) (h ++ [TPollJoin i true; TReturn i (Some None)])
          else SC s1 (<[i := TK j TInner]> l) (h ++ [TPollJoin i false])
      | _ => x
      end
  | SInner i r =>
      (* scoped_task.rs:46-49 *)
      match l !! i with
      | Some (TK j TInner) =>
          match r with
          | Some v => SC s (<[i := TK j TDone]> l) (h ++ [TPollInner i (Some v); TReturn i (Some (Some v))])
          | None => SC s (<[i := TK j TReady]> l) (h ++ [TPollInner i None; TReturn i None])
          end
      | _ => x
      end
  | SDropTask i =>
      (* the fields are dropped; a task cannot be dropped while it is being polled *)
      match l !! i with
      | Some (TK j (TReady | TDone)) => SC (step s (ADropJoin j)) (<[i := TK j TGone]> l) h
      | _ => x
      end
  end.
Definition sc_init (c : option nat) : scs := SC (init c) [] [].
Definition sc_run (c : option nat) (ops : list sop) : scs := fold_left sc_step ops (sc_init c).
