(** Concrete executions used as examples of part E. *)
From stdpp Require Import base numbers list.
From Coq Require Import Lia.
From Verif Require Import Prio Heap State Model Lib Spec Witness WitnessB WitnessC.

(** A receive future was polled (waker 0) and waits; then a message is sent. *)
Definition w_wr : state := drive (init None) (recv 0 1 ++ send 0 0).
(** Capacity 1: one message is queued, two sends are blocked (wakers 1 and 2); then a message is received. *)
Definition w_ws : state := drive (init (Some 1)) (send 0 0 ++ send 0 1 ++ [ASend 0; ADetach 2; APollSend 2] ++ recv 0 1).
(** ... the reply of the first send arrives. *)
Definition w_ws2 : state := drive (init (Some 1)) (send 0 0 ++ recv 0 1 ++ [APollSend 0] ++ handle 1 7).
(** A detached receiver was polled (waker 1) and waits; then the reply arrives. *)
Definition w_rc : state := drive (init None) ([ASend 0; ADetach 0; APollSend 0; APollRcv 0] ++ recv 0 1 ++ handle 1 7).
(** A join handle was polled (waker 0), another was not; then the last mailbox is dropped. *)
Definition w_jn : state := drive (init None) [AJoin 0; AJoin 0; APollJoin 0; ADropHol 0].

Lemma reach_w_wr : reachable w_wr. Proof. exact (drive_reachable _ _). Qed.
Lemma reach_w_ws : reachable w_ws. Proof. exact (drive_reachable _ _). Qed.
Lemma reach_w_ws2 : reachable w_ws2. Proof. exact (drive_reachable _ _). Qed.
Lemma reach_w_rc : reachable w_rc. Proof. exact (drive_reachable _ _). Qed.
Lemma reach_w_jn : reachable w_jn. Proof. exact (drive_reachable _ _). Qed.

Lemma not_idle_spec s r o : (∃ h, hols s !! r = Some h ∧ h_st h = HRecvWait o) →
  match ones s !! o with Some (ON _ (OEmpty _)) => false | _ => true end = true → ¬ idle s r.
Proof. intros (h & Hh & Hs) H (h' & o' & rx & w & Hh' & Hs' & Ho). rewrite Hh in Hh'. simplify_eq. rewrite Hs in Hs'. simplify_eq. by rewrite Ho in H. Qed.
Lemma recv_resolves_spec n s r a i k : log (run s (APollRecv r :: replicate n (Step (length (thr s))))) =
    take k (log (run s (APollRecv r :: replicate n (Step (length (thr s)))))) ++ log s →
  take k (log (run s (APollRecv r :: replicate n (Step (length (thr s)))))) !! i = Some (EvRecv r a) → receive_resolves_to s r a.
Proof. intros H1 H2. exists n. by eapply newly_spec. Qed.
Lemma rcv_resolves_spec n s x o i k : log (run s (APollRcv x :: replicate n (Step (length (thr s))))) =
    take k (log (run s (APollRcv x :: replicate n (Step (length (thr s)))))) ++ log s →
  take k (log (run s (APollRcv x :: replicate n (Step (length (thr s)))))) !! i = Some (EvReceiver x o) → receiver_resolves_to s x o.
Proof. intros H1 H2. exists n. by eapply newly_spec. Qed.
Lemma woken_spec i s w : wakes s !! i = Some w → woken s w.
Proof. apply elem_of_list_lookup_2. Qed.
