(** Concrete broadcasts to actors on executors. *)
From stdpp Require Import base numbers list list_numbers.
From Coq Require Import Lia.
From Verif Require Import Prio Heap State Model Lib Spec Witness System SystemSpec StopSpec SystemInv WitnessI WitnessJ BcastSpec.

(** Two actors wait for messages on two mailboxes; a broadcast begins, and is about to be handed to the channel. *)
Definition n_pre : list sop :=
  [SCall (AMbClone 0); SCall (Step 0); SCall (Step 0); SSpawn 0; SSpawn 1; STask 0 0; STask 1 0; STask 0 0; STask 1 0; STask 0 0; STask 1 0] ++
  [SCall (Step 1); SCall (Step 2); SCall (Step 1); SCall (Step 2); SCall (ABroadcast 0); SCall (APollSend 0); SCall (Step 3); SCall (Step 3)].
Definition n_wait : sys := sys_run (sys_init (Some 1)) n_pre.
(** It is handed over; then everything comes to rest. *)
Definition n_sent : sys := sys_step n_wait (SCall (Step 3)).
Definition n_rest : sys := sys_auto 400 n_sent.
Lemma hands_off_n : hands_off (n_pre ++ [SCall (Step 3)]).
Proof. intros h H. apply elem_of_list_In in H. vm_compute in H. repeat (destruct H as [H|H]; [done|]). done. Qed.
Lemma n_rest_reachable : reachable (ch n_rest).
Proof. apply sys_reach, sys_auto_reachable. exists (Some 1), (n_pre ++ [SCall (Step 3)]). reflexivity. Qed.

(** Capacity 1: two actors, a broadcast, and a second one that has to wait. *)
Definition call_bc (f t : nat) : list sop := [SCall (ABroadcast 0); SCall (APollSend f)] ++ replicate 8 (SCall (Step t)).
Definition n_two : list sop :=
  [SCall (AMbClone 0); SCall (Step 0); SCall (Step 0); SSpawn 0; SSpawn 1; STask 0 0; STask 1 0] ++ call_bc 0 1 ++ call_bc 1 2.
Definition n_blocked : sys := sys_run (sys_init (Some 1)) n_two.
Definition n_unblocked : sys := sys_auto 400 n_blocked.
(** Checking that nothing more happens by itself. *)
Lemma task_value t v w s : task_step t v s = None → task_step t w s = None.
Proof. unfold task_step. repeat case_match; done. Qed.
Lemma rest_spec y : next_inner y = None → ∀ l, ¬ inner y l.
Proof.
  unfold next_inner. destruct (List.find _ (seq 0 (length (thr (ch y))))) eqn:F1; [done|]. destruct (List.find _ (seq 0 (length (tk y)))) eqn:F2; [done|].
  intros _ l [(t & u & _ & rest & Ht)|(i & v & t & x & _ & Ht & Hx)].
  - assert (In t (seq 0 (length (thr (ch y))))) as Hin by (apply in_seq; apply lookup_lt_Some in Ht; lia).
    pose proof (find_none _ _ F1 t Hin) as H. cbn in H. by rewrite Ht in H.
  - assert (In i (seq 0 (length (tk y)))) as Hin by (apply in_seq; apply lookup_lt_Some in Ht; lia).
    pose proof (find_none _ _ F2 i Hin) as H. cbn in H. rewrite Ht in H. destruct (task_step t 0 (ch y)) eqn:E; [done|]. by rewrite (task_value t 0 v _ E) in Hx.
Qed.
(** One actor works and handles a broadcast; another actor fails to start, with the broadcast in its mailbox; the next
    broadcast waits. *)
Definition n_stale1 : list sop := [SCall (AMbClone 0); SCall (Step 0); SCall (Step 0); SSpawn 0] ++ call_bc 0 1.
Definition n_stale2 : list sop := n_stale1 ++ sys_sched 100 (sys_run (sys_init (Some 1)) n_stale1) ++ [SSpawn 1; STask 1 3].
Definition n_stale3 : list sop := n_stale2 ++ sys_sched 100 (sys_run (sys_init (Some 1)) n_stale2).
Definition n_stale : list sop := Eval vm_compute in n_stale3 ++ call_bc 1 (length (thr (ch (sys_run (sys_init (Some 1)) n_stale3)))).
Definition y_stale : sys := sys_run (sys_init (Some 1)) n_stale.
Lemma stale_blocks : ∃ c l f x, c ≠ Some 0 ∧ hands_off l ∧ uncancelled l ∧ no_stops l ∧
  let z := sys_run (sys_init c) l in (∀ o, ¬ inner z o) ∧ some_actor z ∧ 0 < strong_addresses (ch z) ∧
  sfs (ch z) !! f = Some x ∧ send_pending x ∧ sf_mode x = MBroadcast ∧ ¬ woken (ch z) (sf_wk x) ∧ resolves_to (ch z) f OPending.
Proof.
  exists (Some 1), n_stale, 1. eexists. split; [done|].
  split; [|split; [|split]].
  1,2,3: intros h; try split; intros H; apply elem_of_list_In in H; vm_compute in H; repeat (destruct H as [H|H]; [done|]); done.
  cbv zeta. split; [apply rest_spec; vm_compute; reflexivity|]. split; [exists 0; eexists; split; [vm_compute; reflexivity|done]|]. split; [vm_compute; lia|].
  split; [vm_compute; reflexivity|]. split; [split; [done|]; left; by eexists|]. split; [done|]. split.
  - intros H. unfold woken in H. apply elem_of_list_In in H. vm_compute in H. tauto.
  - exists 10. apply (newly_spec 0 1); vm_compute; reflexivity.
Qed.
