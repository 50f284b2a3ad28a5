(** All priority queues of the channel are binary heaps. *)
From stdpp Require Import base numbers list list_numbers.
From Coq Require Import Lia.
From Verif Require Import Prio Heap State Model HeapProofs Frame Lib InvBusy InvCount Effects.

Definition bok (q : bqueue) : Prop := heap_ok bm_prio (bq_heap q).
Definition InvHeap (s : state) : Prop := heap_ok um_prio (uq s) ∧ Forall bok (bqueues s).

Lemma bq_get_ok s b : Forall bok (bqueues s) → heap_ok bm_prio (bq_get s b).
Proof.
  intros H. unfold bq_get. destruct (bqueues s !! b) as [q|] eqn:E; [|apply heap_ok_nil].
  exact (proj1 (Forall_lookup _ _) H _ _ E).
Qed.
Lemma bq_put_ok b h s : heap_ok bm_prio h → Forall bok (bqueues s) → Forall bok (bqueues (bq_put b h s)).
Proof.
  intros Hh H. unfold bq_put. destruct (bqueues s !! b) as [q|] eqn:E; [|done]. prj.
  by apply Forall_insert.
Qed.
Lemma bq_puts_ok m l s :
  Forall bok (bqueues s) →
  Forall bok (bqueues (fold_left (λ s b, bq_put b (heap_push bm_prio m (bq_get s b)) s) l s)).
Proof.
  revert s; induction l as [|b l IH]; intros s H; simpl; [done|]. apply IH. apply bq_put_ok; [|done].
  apply heap_push_ok. by apply bq_get_ok.
Qed.
Lemma send_broadcast_ok m s : Forall bok (bqueues s) → Forall bok (bqueues (send_broadcast m s)).
Proof.
  intros H. unfold send_broadcast. cbv zeta.
  repeat (progress (prj; autorewrite with fr_bqueues)). by apply bq_puts_ok.
Qed.
Lemma pop_broadcast_ok b s : Forall bok (bqueues s) → Forall bok (bqueues (fst (pop_broadcast b s))).
Proof.
  intros H. unfold pop_broadcast. destruct (heap_pop _ _) as [[m h]|] eqn:E; [|done]. cbv zeta.
  assert (heap_ok bm_prio h) as Hh by (eapply heap_pop_ok; [by apply bq_get_ok|done]).
  case_match; cbn [fst]; [prj; by apply bq_put_ok|].
  match goal with |- context [take_waitingA ?x] => dpair (take_waitingA x) end.
  destruct r1; cbn [fst]; try apply send_broadcast_ok; autorewrite with fr_bqueues; by apply bq_put_ok.
Qed.
Lemma pop_unicast_ok s : heap_ok um_prio (uq s) → heap_ok um_prio (uq (fst (pop_unicast s))).
Proof.
  intros H. unfold pop_unicast. destruct (heap_pop _ _) as [[m h]|] eqn:E; [|done]. cbv zeta.
  assert (heap_ok um_prio h) as Hh by (by eapply heap_pop_ok).
  case_match; cbn [fst]; [done|].
  match goal with |- context [take_waiting1 ?x] => dpair (take_waiting1 x) end.
  destruct r1; cbn [fst]; autorewrite with fr_uq; [apply heap_push_ok|]; by autorewrite with fr_uq.
Qed.

Ltac heapfin :=
  repeat (progress (prj; autorewrite with fr_uq fr_bqueues));
  first [ done | by apply heap_push_ok | by apply pop_unicast_ok | by apply send_broadcast_ok
        | by apply pop_broadcast_ok | apply heap_ok_nil | idtac ].

Lemma reach_heap s : reach s → InvHeap s.
Proof.
  revert s. apply reach_inv; unfold InvHeap.
  - intros c. split; [apply heap_ok_nil|]. constructor; [apply heap_ok_nil|done].
  - intros s o Hr [I1 I2]. destruct o; cbn [api]; repeat (dgoal; try done); cbv zeta;
      unfold add_addr; repeat dgoal; split; heapfin.
    all: apply Forall_insert; [done|]; exact (proj1 (Forall_lookup _ _) I2 _ _ Em1).
  - intros s t u rest s1 new Hr [I1 I2] Ht E Hthr. prj. clear Hthr.
    exec_cases u E; split; heapfin.
    all: try (rewrite rx_shutdown_uq; apply heap_ok_nil).
    1,2: apply Forall_insert; [done|]; first [apply heap_ok_nil|exact (proj1 (Forall_lookup _ _) I2 _ _ Em)].
    + apply Forall_app. split; [done|]. constructor; [apply heap_ok_nil|done].
  - intros s Hr [I1 I2] Ho. rewrite free_uq. autorewrite with fr_bqueues.
    split; [apply heap_ok_nil|done].
Qed.
