(** Concrete executions: priorities, stop_self, cancelled sends. *)
From stdpp Require Import base numbers list.
From Coq Require Import Lia.
From Verif Require Import Prio Heap State Model Lib Spec Spec2 Witness.

(** A message and a broadcast whose priorities were set before their first poll; another message never polled. *)
Definition w_prio : state :=
  drive (init (Some 2)) [ASend 0; APriority 0 5; APriority 0 3; APollSend 0; ASend 0; ABroadcast 0; APriority 2 4; APollSend 2].
Lemma reach_w_prio : reachable w_prio.
Proof. apply drive_reachable. Qed.
(** Two mailboxes; a handler is running on the first one; then it stops itself and finishes. *)
Definition w_run : state := drive (init None) ([AMbClone 0] ++ send 0 0 ++ recv 0 2 ++ [ADispatch 2; ARun 2]).
Definition w_stopself : state := drive (init None) ([AMbClone 0] ++ send 0 0 ++ recv 0 2 ++ [ADispatch 2; ARun 2; AStopSelf 2; AFinish 2 7]).
(** Capacity 1: a queued broadcast and two blocked ones. *)
Definition w_bblocked : state := drive (init (Some 1)) [ABroadcast 0; APollSend 0; ABroadcast 0; APollSend 1; ABroadcast 0; APollSend 2].
(** A blocked send is being cancelled. *)
Definition w_cancel : state := run w_blocked [ADropSend 1].
(** A message is about to be received from a full mailbox with blocked senders. *)
Definition w_slot : state := run w_blocked [ANext 0; APollRecv 1].
Lemma reach_w_run : reachable w_run.
Proof. apply drive_reachable. Qed.
Lemma reach_w_bblocked : reachable w_bblocked.
Proof. apply drive_reachable. Qed.
Lemma reach_w_cancel : reachable w_cancel.
Proof. apply run_drive_reachable. Qed.
Lemma reach_w_slot : reachable w_slot.
Proof. apply run_drive_reachable. Qed.
