(** Concrete executions used as examples and counterexamples of part C. *)
From stdpp Require Import base numbers list.
From Coq Require Import Lia.
From Verif Require Import Prio Heap State Model Lib Spec Witness WitnessB.

(** Two mailboxes; a broadcast is accepted; the first mailbox receives it; later a third mailbox is made. *)
Definition w_bc : state := drive (init None) ([AMbClone 0; ABroadcast 0; APollSend 0] ++ recv 0 2).
Definition w_bc0 : state := run (drive (init None) [AMbClone 0]) [ABroadcast 0; APollSend 0; Step 1; Step 1].
Definition w_bc1 : state := run w_bc [AMbClone 0].
Definition w_bc2 : state := drive w_bc [AMbClone 0].
(** Capacity 1: a handler runs on mailbox 0 while the mailbox and the broadcast backlog are full of messages of
    priority 9; the handler calls stop_all; a fresh receive looks at the queues. *)
Definition w_stop0 : state :=
  run (drive (init (Some 1)) (send 0 0 ++ recv 0 1 ++ [ADispatch 1; ARun 1] ++ sendp 1 9 ++ [ABroadcast 0; APriority 2 9; APollSend 2]))
    [AStopAll 1].
Definition w_stop : state := run (settle 50 w_stop0) (recv 0 2).
Definition w_stop1 : state := drive (settle 50 w_stop) [ADispatch 2].
(** Capacity 1: mailbox 1 is dropped with an unreceived broadcast, then a broadcast blocks. *)
Definition w_stale : state :=
  drive (init (Some 1)) ([AMbClone 0; ABroadcast 0; APollSend 0] ++ recv 0 2 ++ [ADropHol 1; ABroadcast 0; APollSend 1]).
(** ... and it stays blocked after everything that could be received was received. *)
Definition w_stale2 : state := drive w_stale ([ADispatch 2; ARun 2; AFinish 2 0] ++ recv 0 3).
(** Capacity 1: the second of two broadcasts blocks because mailbox 0 lags. *)
Definition lag_ops : list op :=
  [ABroadcast 0; APollSend 0; Step 0; Step 0; Step 0; Step 0; Step 0;
   ABroadcast 0; APollSend 1; Step 1; Step 1; Step 1; Step 1; Step 1; ASend 0; APollSend 2; Step 2; Step 2; Step 2; Step 2; Step 2].
Definition w_lag : state := run (init (Some 1)) lag_ops.
(** The last mailbox is gone; an unsent message and an unsent broadcast. *)
Definition w_dead : state := drive (init None) [ASend 0; ABroadcast 0; ADropHol 0].
Definition w_dead2 : state := drive w_dead [APollSend 0; APollSend 1].
(** A receive future is being dropped: it was not assigned anything when its destructor looked; then a sender
    assigns it a message, which goes down with it although another mailbox is alive. *)
Definition w_window : state :=
  settle 50 (run (drive (init None) (recv 0 1 ++ [ASend 0])) ([ADropHol 1; Step 1] ++ [APollSend 0; Step 2; Step 2; Step 2])).
(** A send has passed its check for connectedness when the last mailbox is dropped; it is accepted afterwards and
    waits for ever. *)
Definition w_late : state := settle 50 (run (init None) ([ASend 0; APollSend 0; Step 0; Step 0] ++ [ADropHol 0; Step 1; Step 1; Step 1])).
(** The last strong address is dropped while a weak address and a join handle exist. *)
Definition w_join : state := drive (init None) [ADowngrade 0; AJoin 1; ADropAddr 0].
(** The last strong address is dropped while a handler runs on mailbox 0 and a message is queued; the handler
    calls stop_all; the other mailbox then receives the message. *)
Definition w_nostop : state := drive (init None) ([AMbClone 0] ++ send 0 0 ++ recv 0 2 ++ [ADispatch 2; ARun 2] ++ send 0 1 ++ [ADropAddr 0]).
Definition w_nostop2 : state := drive w_nostop ([AStopAll 2] ++ recv 1 3).
(** Capacity 1: a message of default priority is queued, a message of priority 5 blocks. *)
Definition w_share : state := drive (init (Some 1)) (send 0 0 ++ sendp 1 5).

Lemma reach_later s s' : reachable s → later s s' → reachable s'.
Proof. intros (c & l & ->) [k ->]. exists c, (l ++ k). by rewrite run_app. Qed.
Lemma run_later s ops : later s (run s ops). Proof. by exists ops. Qed.
Lemma settle_later n s : later s (settle n s). Proof. destruct (settle_run n s) as [ops ->]. by exists ops. Qed.
Lemma reach_w_bc : reachable w_bc. Proof. exact (drive_reachable _ _). Qed.
Lemma reach_w_bc0 : reachable w_bc0. Proof. exact (run_drive_reachable _ _ _). Qed.
Lemma reach_w_bc1 : reachable w_bc1. Proof. exact (run_drive_reachable _ _ _). Qed.
Lemma later_w_bc : later w_bc w_bc2. Proof. exact (drive_later _ _). Qed.
Lemma reach_w_stop0 : reachable w_stop0. Proof. exact (run_drive_reachable _ _ _). Qed.
Lemma reach_w_stop : reachable w_stop. Proof. exact (reach_later _ _ (reach_later _ _ reach_w_stop0 (settle_later 50 _)) (run_later _ _)). Qed.
Lemma reach_w_stop1 : reachable w_stop1. Proof. exact (reach_later _ _ (reach_later _ _ reach_w_stop (settle_later 50 _)) (drive_later _ _)). Qed.
Lemma reach_w_stale : reachable w_stale. Proof. exact (drive_reachable _ _). Qed.
Lemma later_w_stale : later w_stale w_stale2. Proof. exact (drive_later _ _). Qed.
Lemma reach_w_lag : reachable w_lag. Proof. exact (run_reachable _ _). Qed.
Lemma reach_w_dead : reachable w_dead. Proof. exact (drive_reachable _ _). Qed.
Lemma later_w_dead : later w_dead w_dead2. Proof. exact (drive_later _ _). Qed.
Lemma reach_w_window : reachable w_window. Proof. exact (reach_later _ _ (run_drive_reachable _ _ _) (settle_later _ _)). Qed.
Lemma reach_w_late : reachable w_late. Proof. exact (reach_later _ _ (run_reachable _ _) (settle_later _ _)). Qed.
Lemma reach_w_join : reachable w_join. Proof. exact (drive_reachable _ _). Qed.
Lemma reach_w_nostop : reachable w_nostop. Proof. exact (drive_reachable _ _). Qed.
Lemma later_w_nostop : later w_nostop w_nostop2. Proof. exact (drive_later _ _). Qed.
Lemma reach_w_share : reachable w_share. Proof. exact (drive_reachable _ _). Qed.

(** ** Checking facts about a concrete state by computation *)
Definition discardsb (s : state) (o : op) : bool :=
  match o with
  | Step t =>
      match thr s !! t with
      | Some (UBqRel b :: _) =>
          match bqueues s !! b with Some (BQ 1 (_ :: _)) => true | _ => false end
      | _ => false
      end
  | _ => false
  end.
Lemma discardsb_spec s o : discardsb s o = false → ¬ discards s o.
Proof.
  intros H (t & b & q & -> & [rest Ht] & Hq & Hr & Hh). unfold discardsb in H. rewrite Ht, Hq in H. destruct q as [n l]; cbn in *. subst n. by destruct l.
Qed.
Fixpoint keepsb (s : state) (ops : list op) : bool :=
  match ops with [] => true | o :: l => negb (discardsb s o) && keepsb (step s o) l end.
Lemma keepsb_spec ops s : keepsb s ops = true → keeps s ops.
Proof.
  revert s; induction ops as [|o l IH]; intros s; [done|]. cbn. intros [H1 H2]%andb_true_iff. split; [|by apply IH].
  apply discardsb_spec. by destruct (discardsb s o).
Qed.
Lemma no_void_spec s : forallb (λ e, match e with EvBcast _ [] => false | _ => true end) (log s) = true → no_void_broadcast s.
Proof. intros H x Hx. by apply (happens_spec _ _ H) in Hx. Qed.
Lemma owned_spec r h s b : hols s !! r = Some h → h_st h ≠ HGone → h_bq h = b → owned_queue s b.
Proof. intros. by exists r, h. Qed.
(** Every owned queue satisfies [p]. *)
Lemma all_owned_spec (p : nat → bool) s : forallb (λ h, match h_st h with HGone => true | _ => p (h_bq h) end) (hols s) = true →
  ∀ b, owned_queue s b → p b = true.
Proof.
  rewrite forallb_forall. intros H b (r & h & Hh & Hs & <-). apply elem_of_list_lookup_2, elem_of_list_In, H in Hh. by destruct (h_st h).
Qed.
Lemma resolves_spec n s f o i k : log (run s (APollSend f :: replicate n (Step (length (thr s))))) =
  take k (log (run s (APollSend f :: replicate n (Step (length (thr s)))))) ++ log s →
  take k (log (run s (APollSend f :: replicate n (Step (length (thr s)))))) !! i = Some (EvSend f o) → resolves_to s f o.
Proof. intros H1 H2. exists n. by eapply newly_spec. Qed.
