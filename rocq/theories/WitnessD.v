(** Concrete executions used as examples of part D. *)
From stdpp Require Import base numbers list.
From Coq Require Import Lia.
From Verif Require Import Prio Heap State Model Lib Spec Witness WitnessB WitnessC.

(** A message was assigned to a waiting receive future, which is then dropped. *)
Definition w_back : state := run (drive (init None) (recv 0 1 ++ send 0 0)) [ADropHol 1].
(** The same without overlapping calls, action by action. *)
Definition calm_ops : list op :=
  [ANext 0; APollRecv 1; Step 0; Step 0; ASend 0; APollSend 0] ++ replicate 6 (Step 1) ++ [ADropHol 1] ++ replicate 8 (Step 2).
Definition w_calm : state := run (init None) calm_ops.
(** Capacity 1: one message is queued and one is blocked; the last mailbox is dropped up to the point where it
    clears the channel. *)
Definition w_last : state := run (drive (init (Some 1)) (send 0 0 ++ send 0 1 ++ [ASend 0; ADetach 2; APollSend 2; ASend 0])) [ADropHol 0; Step 3].
Definition w_last2 : state := settle 50 (step w_last (Step 3)).
(** Two mailboxes; a handler runs; there is a strong address. *)
Definition w_all : state := drive (init None) ([AMbClone 0] ++ send 0 0 ++ recv 0 2 ++ [ADispatch 2; ARun 2]).
(** Capacity 1: the mailbox is full of messages and a broadcast is about to enter; the other way round. *)
Definition w_fullU : state := run (drive (init (Some 1)) (send 0 0)) [ABroadcast 0; APollSend 1; Step 1; Step 1].
Definition w_fullB : state := run (drive (init (Some 1)) [ABroadcast 0; APollSend 0]) [ASend 0; APollSend 1; Step 1; Step 1].

Lemma reach_w_back : reachable w_back. Proof. exact (run_drive_reachable _ _ _). Qed.
Lemma reach_w_last : reachable w_last. Proof. exact (run_drive_reachable _ _ _). Qed.
Lemma later_w_last : later (step w_last (Step 3)) w_last2. Proof. exact (settle_later _ _). Qed.
Lemma reach_w_all : reachable w_all. Proof. exact (drive_reachable _ _). Qed.
Lemma reach_w_fullU : reachable w_fullU. Proof. exact (run_drive_reachable _ _ _). Qed.
Lemma reach_w_fullB : reachable w_fullB. Proof. exact (run_drive_reachable _ _ _). Qed.

Fixpoint sequentialb (s : state) (ops : list op) : bool :=
  match ops with [] => true | o :: l => (match o with Step _ => true | _ => quietb s end) && sequentialb (step s o) l end.
Lemma sequentialb_spec ops s : sequentialb s ops = true → sequential s ops.
Proof.
  revert s; induction ops as [|o l IH]; intros s; [done|]. cbn. intros [H1 H2]%andb_true_iff. split; [|by apply IH].
  intros Hn. apply quietb_spec. destruct o; try done. by edestruct Hn.
Qed.
