(** Receive futures that wait un-notified have nothing to receive. *)
From stdpp Require Import base numbers list list_numbers.
From Coq Require Import Lia.
From Verif Require Import Prio Heap State Model HeapProofs Frame Lib InvBusy InvCount Effects InvMsg InvOne InvOne2 InvDisc.

(** ** The shared queue *)
Definition InvW1 (s : state) : Prop :=
  ∀ o, 0 < Σ (isn o) (wrx s) → 0 < at_ o_emp (ones s) o → uq s = [].

Lemma one_send_emp_le o c s k : at_ o_emp (ones (fst (one_send o c s))) k ≤ at_ o_emp (ones s) k.
Proof. apply one_send_emp. Qed.
Lemma fulfill_mono ws m s k :
  Σ (isn k) (wrx (fst (fulfill ws m s))) ≤ Σ (isn k) ws ∧
  at_ o_emp (ones (fst (fulfill ws m s))) k ≤ at_ o_emp (ones s) k.
Proof.
  revert s; induction ws as [|o ws IH]; intros s; simpl; [done|].
  pose proof (one_send_emp_le o (CNewMsg m) s k) as H3.
  destruct (one_send o (CNewMsg m) s) as [s' []] eqn:E; cbn [fst] in *; [prj; lia|].
  destruct (IH s'). lia.
Qed.
Lemma try_fulfill_mono m s k :
  Σ (isn k) (wrx (fst (try_fulfill_receiver m s))) ≤ Σ (isn k) (wrx s) ∧
  at_ o_emp (ones (fst (try_fulfill_receiver m s))) k ≤ at_ o_emp (ones s) k.
Proof. apply fulfill_mono. Qed.
Lemma fulfill_false ws m s : snd (fulfill ws m s) = false → wrx (fst (fulfill ws m s)) = [].
Proof.
  revert s; induction ws as [|o ws IH]; intros s; simpl; [done|].
  destruct (one_send o (CNewMsg m) s) as [s' []] eqn:E; cbn [fst snd] in *; [done|apply IH].
Qed.
Lemma try_fulfill_false m s :
  snd (try_fulfill_receiver m s) = false → wrx (fst (try_fulfill_receiver m s)) = [].
Proof. apply fulfill_false. Qed.
Lemma pop_broadcast_mono b s k :
  0 < Σ (isn k) (wrx (fst (pop_broadcast b s))) →
  Σ (isn k) (wrx (fst (pop_broadcast b s))) = Σ (isn k) (wrx s) ∧
  ones (fst (pop_broadcast b s)) = ones s.
Proof.
  unfold pop_broadcast. destruct (heap_pop _ _) as [[m h]|]; [|done]. cbv zeta.
  case_match; cbn [fst]; [by repeat (progress (prj; autorewrite with fr_wrx fr_ones))|].
  match goal with |- context [take_waitingA ?x] => dpair (take_waitingA x) end.
  destruct r1; cbn [fst]; [rewrite wrx_send_broadcast; simpl; lia|].
  by repeat (progress (prj; autorewrite with fr_wrx fr_ones)).
Qed.

Lemma reach_w1 s : reach s → InvW1 s.
Proof.
  revert s. apply reach_inv; unfold InvW1.
  - intros c o. cbn. lia.
  - intros s o Hr I i. specialize (I i).
    destruct o; cbn [api]; repeat (dgoal; try done); cbv zeta; unfold add_addr; repeat dgoal;
      by repeat (progress (prj; autorewrite with fr_wrx fr_ones fr_uq)).
  - intros s t u rest s1 new Hr I1 Ht E Hthr o. specialize (I1 o). prj. clear Hthr.
    pose proof (reach_handle s Hr o) as [Hh _].
    exec_cases u E; repeat (progress (prj; autorewrite with fr_wrx fr_ones fr_uq)); try done.
    all: rewrite ?rx_shutdown_uq; try done.
    all: rewrite ?wrx_send_broadcast; try (simpl; lia).
    all: try (rewrite try_fulfill_false by done); try (simpl; lia).
    all: try match goal with |- context [try_fulfill_receiver ?m ?s] => pose proof (try_fulfill_mono m s o) end.
    all: try match goal with |- context [pop_broadcast ?m ?s] => pose proof (pop_broadcast_mono m s o) end.
    all: sums; cbn [sum_list_with].
    all: try (intros Hw He; apply I1; try lia; fin; done).
    1: { pose proof (one_send_emp_le o0 CShutdown s o). intros; apply I1; lia. }
    all: try (intros Hw He; exfalso; rewrite (I1 Hw He) in *; done).
    all: try (intros _ _; destruct (uq s); done).
    all: try (unfold isn in *; fin; done).
    all: try (intros Hw; destruct (H Hw) as [A B]; rewrite A in Hw; rewrite B; by apply I1).
  - intros s Hr I Ho o. by rewrite free_uq.
Qed.
