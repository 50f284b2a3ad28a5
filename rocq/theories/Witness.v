(** Concrete executions used as witnesses and examples. *)
From stdpp Require Import base numbers list.
From Coq Require Import Lia.
From Verif Require Import Prio Heap State Model Lib Spec.

(** Single-threaded executions are executions. *)
Lemma settle_run n s : ∃ ops, settle n s = run s ops.
Proof.
  revert s; induction n as [|n IH]; intros s; simpl; [by exists []|].
  case_match; [|by exists []]. destruct (IH (step s (Step n0))) as [ops ->]. by exists (Step n0 :: ops).
Qed.
Lemma drive_run_n n l s : ∃ ops, fold_left (λ s o, settle n (step s o)) l s = run s ops.
Proof.
  revert s; induction l as [|o l IH]; intros s; [by exists []|]. cbn [fold_left].
  destruct (settle_run n (step s o)) as [k ->].
  destruct (IH (run (step s o) k)) as [k' ->].
  exists (o :: k ++ k'). unfold run. cbn [fold_left]. by rewrite fold_left_app.
Qed.
Lemma drive_run l s : ∃ ops, drive s l = run s ops.
Proof. apply drive_run_n. Qed.
Lemma drive_reachable c l : reachable (drive (init c) l).
Proof. destruct (drive_run l (init c)) as [ops ->]. by exists c, ops. Qed.
Lemma run_reachable c l : reachable (run (init c) l).
Proof. by exists c, l. Qed.
Lemma run_drive_reachable c l k : reachable (run (drive (init c) l) k).
Proof. destruct (drive_run l (init c)) as [ops ->]. exists c, (ops ++ k). by rewrite run_app. Qed.
Lemma drive_drive_reachable c l k : reachable (drive (drive (init c) l) k).
Proof.
  destruct (drive_run l (init c)) as [ops ->]. destruct (drive_run k (run (init c) ops)) as [ops' ->].
  exists c, (ops ++ ops'). by rewrite run_app.
Qed.
Lemma drive_later s l : later s (drive s l).
Proof. destruct (drive_run l s) as [ops ->]. by exists ops. Qed.

(** Send a message on address [a] as send future [f] and poll it once. *)
Definition send (a f : nat) : list op := [ASend a; APollSend f].
(** Start and poll a receive future [r] on mailbox [h]. *)
Definition recv (h r : nat) : list op := [ANext h; APollRecv r].
(** Run the handler of the received message [r] to the end. *)
Definition handle (r v : nat) : list op := [ADispatch r; ARun r; AFinish r v].

(** Five messages of default priority are sent one after the other; one actor handles
    them one after the other. *)
Definition w_fifo : state :=
  drive (init None) (send 0 0 ++ send 0 1 ++ send 0 2 ++ send 0 3 ++ send 0 4 ++
    recv 0 1 ++ handle 1 7 ++ recv 0 2 ++ handle 2 7 ++ recv 0 3 ++ handle 3 7 ++ recv 0 4 ++ handle 4 7 ++ recv 0 5 ++ handle 5 7).
(** Capacity 1: two senders are blocked in the order 1, 2; then a message is received. *)
Definition w_blocked : state := drive (init (Some 1)) (send 0 0 ++ send 0 1 ++ send 0 2).
Definition w_admit : state := drive w_blocked (recv 0 1).
(** Capacity 1: the message assigned to a waiting receiver comes back into a full queue. *)
Definition w_over : state := drive (init (Some 1)) (recv 0 1 ++ send 0 0 ++ send 0 1 ++ [ADropHol 1]).
(** Capacity 0: a sender is blocked, then a receiver starts to wait. *)
Definition w_zero : state := drive (init (Some 0)) (send 0 0 ++ recv 0 1).
(** Two waiting receivers; the first is assigned a message, the last strong address goes
    away, the first receiver is dropped and gives its message back. *)
Definition w_early0 : state :=
  drive (init None) (recv 0 1 ++ recv 0 2 ++ send 0 0 ++ [ADropAddr 0; ADropHol 1]).
Definition w_early : state := drive w_early0 [APollRecv 2].

(** A full life: a message is received and handled while another is queued and a third
    one is blocked. *)
Definition w_life : state :=
  drive (init (Some 1)) (send 0 0 ++ send 0 1 ++ send 0 2 ++ recv 0 1 ++ handle 1 7 ++ recv 0 2 ++ [ADispatch 2; ARun 2]).

(** Messages of priorities 3, 5 and 3 and a broadcast of priority 5 are queued; a fresh
    receive is about to look at the queues. *)
Definition sendp (f : nat) (n : N) : list op := [ASend 0; APriority f n; APollSend f].
Definition w_ties : state :=
  run (drive (init None) (sendp 0 3 ++ sendp 1 5 ++ sendp 2 3 ++ [ABroadcast 0; APriority 3 5; APollSend 3])) (recv 0 1).
(** Capacity 1: senders with priorities 4 and 3 are blocked. *)
Definition w_blocked3 : state := run (drive (init (Some 1)) (sendp 0 0 ++ sendp 1 4 ++ sendp 2 3)) (recv 0 1).
(** A send is about to take the lock: the mailbox is full, a receiver is idle, the
    broadcast backlog is full. *)
Definition w_lock_full : state := run (drive (init (Some 1)) (send 0 0)) [ASend 0; APollSend 1; Step 1; Step 1].
Definition w_lock_idle : state := run (drive (init (Some 1)) (recv 0 1)) [ASend 0; APollSend 0; Step 1; Step 1].
Definition w_lock_bc : state := run (drive (init (Some 1)) [ABroadcast 0; APollSend 0]) [ABroadcast 0; APollSend 1; Step 1; Step 1].
(** A receiver is about to be told that the last strong address is gone, while weak
    senders fill the mailbox. *)
Definition w_notify : state :=
  run (drive (init (Some 1)) (recv 0 1 ++ [ADowngrade 0; ASend 1; ASend 1]))
    [APollSend 0; Step 1; Step 1; APollSend 1; Step 2; Step 2; ADropAddr 0; Step 3; Step 3; Step 1; Step 2; Step 2].
(** Drops of an address and of a mailbox in progress. *)
Definition w_drop : state := run (init None) [ADropAddr 0; ADropHol 0].
(** A weak address while a strong one exists, and after it is gone. *)
Definition w_weak : state := drive (init None) [ADowngrade 0].
Definition w_weak2 : state := drive w_weak [ADropAddr 0].
(** A fresh receive on an empty mailbox without strong addresses. *)
Definition w_end : state := run (drive (init (Some 1)) [ADropAddr 0]) (recv 0 1).
Lemma reach_w_drop : reachable w_drop. Proof. exact (run_reachable _ _). Qed.
Lemma reach_w_weak : reachable w_weak. Proof. exact (drive_reachable _ _). Qed.
Lemma reach_w_ties : reachable w_ties. Proof. exact (run_drive_reachable _ _ _). Qed.
Lemma reach_w_blocked3 : reachable w_blocked3. Proof. exact (run_drive_reachable _ _ _). Qed.
Lemma reach_w_lock_full : reachable w_lock_full. Proof. exact (run_drive_reachable _ _ _). Qed.
Lemma reach_w_lock_idle : reachable w_lock_idle. Proof. exact (run_drive_reachable _ _ _). Qed.
Lemma reach_w_lock_bc : reachable w_lock_bc. Proof. exact (run_drive_reachable _ _ _). Qed.
Lemma reach_w_notify : reachable w_notify. Proof. exact (run_drive_reachable _ _ _). Qed.
Lemma reach_w_end : reachable w_end. Proof. exact (run_drive_reachable _ _ _). Qed.
Lemma reach_w_weak2 : reachable w_weak2. Proof. exact (drive_drive_reachable _ _ _). Qed.

(** ** Checking facts about a concrete state by computation *)
Definition quietb (s : state) : bool := forallb (λ p : list micro, match p with [] => true | _ => false end) (thr s).
Lemma quietb_spec s : quietb s = true → quiet s.
Proof.
  unfold quietb, quiet. rewrite forallb_forall. intros H t p Ht. apply elem_of_list_lookup_2, elem_of_list_In, H in Ht. by destruct p.
Qed.
Lemma happens_spec (p : ev → bool) s : forallb p (log s) = true → ∀ e, happened e s → p e = true.
Proof. rewrite forallb_forall. intros H e He. apply H. by apply elem_of_list_In. Qed.
Lemma default_spec s : forallb (λ e, match e with EvPrio _ n => (n =? 0)%N | _ => true end) (log s) = true → default_priorities s.
Proof. intros H m n Hm. apply (happens_spec _ _ H) in Hm. cbn in Hm. by apply N.eqb_eq. Qed.
Lemma no_broadcasts_spec s : forallb (λ e, match e with EvBcast _ _ => false | _ => true end) (log s) = true → no_broadcasts s.
Proof. intros H m n Hm. by apply (happens_spec _ _ H) in Hm. Qed.
Lemma before_spec i j e1 e2 s : i < j → log s !! i = Some e2 → log s !! j = Some e1 → before e1 e2 s.
Proof. intros ???. by exists i, j. Qed.
Lemma happened_spec i e s : log s !! i = Some e → happened e s.
Proof. apply elem_of_list_lookup_2. Qed.
Lemma newly_spec i n e s s' : log s' = take n (log s') ++ log s → take n (log s') !! i = Some e → newly s s' e.
Proof. intros H1 H2. exists (take n (log s')). split; [done|]. by eapply elem_of_list_lookup_2. Qed.
Lemma reach_w_fifo : reachable w_fifo. Proof. exact (drive_reachable _ _). Qed.
Lemma reach_w_blocked : reachable w_blocked. Proof. exact (drive_reachable _ _). Qed.
Lemma reach_w_over : reachable w_over. Proof. exact (drive_reachable _ _). Qed.
Lemma reach_w_zero : reachable w_zero. Proof. exact (drive_reachable _ _). Qed.
Lemma reach_w_early0 : reachable w_early0. Proof. exact (drive_reachable _ _). Qed.
Lemma reach_w_life : reachable w_life. Proof. exact (drive_reachable _ _). Qed.
Lemma later_w_admit : later w_blocked w_admit. Proof. exact (drive_later _ _). Qed.
Lemma later_w_early : later w_early0 w_early. Proof. exact (drive_later _ _). Qed.

(** Kernel conversion by the virtual machine. *)
Ltac vm := vm_compute; reflexivity.
