(** Concrete runs of receive futures. *)
From stdpp Require Import base numbers list.
From Coq Require Import Lia.
From Verif Require Import Prio Heap State Model Lib Spec PollSpec Witness.

(** Checking that no mailbox has two receive futures. *)
Definition recv_b (h : holder) : bool := match h_st h with HRecvNew | HRecvBusy | HRecvWait _ => true | _ => false end.
Definition one_b (s : state) : bool :=
  forallb (λ r, forallb (λ r', match hols s !! r, hols s !! r' with
    | Some h, Some h' => negb (recv_b h) || negb (recv_b h') || negb (h_bq h =? h_bq h') || (r =? r') | _, _ => true end)
    (seq 0 (length (hols s)))) (seq 0 (length (hols s))).
Lemma one_spec s : one_b s = true → one_receiver s.
Proof.
  intros H r r' h h' Hh Hh' HR HR' E. unfold one_b in H. rewrite forallb_forall in H.
  assert (∀ i x, hols s !! i = Some x → In i (seq 0 (length (hols s)))) as HI by (intros i x Hi; apply in_seq; apply lookup_lt_Some in Hi; lia).
  specialize (H r (HI _ _ Hh)). cbn beta in H. rewrite forallb_forall in H. specialize (H r' (HI _ _ Hh')). cbn beta in H. rewrite Hh, Hh', E, Nat.eqb_refl in H.
  unfold receiving in HR, HR'. unfold recv_b in H. destruct (h_st h); try done; destruct (h_st h'); try done; by apply Nat.eqb_eq in H.
Qed.
Lemma one_time_spec c l : forallb (λ n, one_b (run (init c) (take n l))) (seq 0 (S (length l))) = true → one_at_a_time c l.
Proof.
  intros H l1 l2 ->. rewrite forallb_forall in H. apply one_spec. specialize (H (length l1)). rewrite take_app in H. apply H. apply in_seq. rewrite app_length. lia.
Qed.

(** A receive future starts to wait; then a message, or a broadcast, is sent. *)
Definition l_wait : list op := [ANext 0; APollRecv 1; Step 0; Step 0].
Definition l_told : list op := l_wait ++ [ASend 0; APollSend 0] ++ replicate 6 (Step 1).
Definition l_told_bc : list op := l_wait ++ [ABroadcast 0; APollSend 0] ++ replicate 6 (Step 1).
(** Two receive futures of one mailbox wait; a broadcast is sent; the first takes it. *)
Definition l_shared : list op :=
  l_wait ++ [ANext 0; APollRecv 2; Step 1; Step 1; ABroadcast 0; APollSend 0] ++ replicate 6 (Step 2) ++ [APollRecv 1; Step 3; Step 3].
Lemma shared_mailbox : ∃ c l l' r k, notified (run (init c) l) r k ∧ newly (run (init c) l) (run (init c) (l ++ l')) (EvRecvPending r).
Proof.
  exists None, l_shared, [APollRecv 2; Step 4; Step 4; Step 4; Step 4], 2, CNewBroadcast. split.
  - eexists _, _, _. by vm_compute.
  - apply (newly_spec 0 1); by vm_compute.
Qed.
(** The last action of a poll that returns Pending; then two messages are sent, the receive future is dropped, and
    another one receives the messages. *)
Definition l_pending : list op := [ANext 0; APollRecv 1; Step 0].
Definition l_race : list op :=
  [ASend 0; APollSend 0] ++ replicate 6 (Step 1) ++ [ASend 0; APollSend 1] ++ replicate 6 (Step 2) ++ [ADropHol 1] ++ replicate 6 (Step 3) ++
  [ANext 0; APollRecv 2; Step 4; ANext 0; APollRecv 3; Step 5].
Lemma final_race : ∃ s o r l m n, reachable s ∧ newly s (step s o) (EvRecvPending r) ∧ dropped_receivers l = 1 ∧ ADropHol r ∈ l ∧
  let z := run (step s o) l in default_priorities z ∧ no_broadcasts z ∧ before (EvAccept m) (EvAccept n) z ∧
  ∃ q q', before (EvRecv q (ToOne (UM n 0))) (EvRecv q' (ToOne (UM m 0))) z.
Proof.
  exists (run (init None) l_pending), (Step 0), 1, l_race, 0, 1. split; [by eexists _, _|]. split; [apply (newly_spec 0 1); by vm_compute|]. split; [by vm_compute|].
  split; [apply elem_of_list_In; vm_compute; tauto|]. cbv zeta. split; [apply default_spec; by vm_compute|]. split; [apply no_broadcasts_spec; by vm_compute|].
  split; [apply (before_spec 3 6); [lia|by vm_compute..]|]. exists 2, 3. apply (before_spec 0 1); [lia|by vm_compute..].
Qed.
