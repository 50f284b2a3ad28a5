(** One-shot channels between waiting receive futures and the channel: the sending half. *)
From stdpp Require Import base numbers list list_numbers.
From Coq Require Import Lia.
From Verif Require Import Prio Heap State Model HeapProofs Frame Lib InvBusy InvCount Effects InvMsg InvOne.

(** ** The sending half: in the list of waiting receivers, or being told to shut down *)
Definition o_used (x : one) : nat := match o_st x with OEmpty _ => 0 | _ => 1 end.
Definition o_emp (x : one) : nat := match x with ON true (OEmpty _) => 1 | _ => 0 end.
Definition g_no (o : nat) (u : micro) : nat := match u with UTxNotify k => isn o k | _ => 0 end.

Definition InvHandle (s : state) : Prop := ∀ o,
  at_ o_used (ones s) o + Σ (isn o) (wrx s) + msum (g_no o) s ≤ lt1 o (length (ones s)) ∧
  at_ o_emp (ones s) o ≤ Σ (isn o) (wrx s) + msum (g_no o) s.

Lemma one_send_len o c s : length (ones (fst (one_send o c s))) = length (ones s).
Proof.
  unfold one_send. destruct (ones s !! o) as [[[] []]|] eqn:E; try done. cbn [fst].
  autorewrite with fr_ones. prj. by rewrite insert_length.
Qed.
Lemma one_send_used o c s k :
  at_ o_used (ones (fst (one_send o c s))) k ≤ at_ o_used (ones s) k + isn k o.
Proof.
  unfold one_send. destruct (ones s !! o) as [[[] []]|] eqn:E; cbn [fst]; try lia.
  autorewrite with fr_ones. prj. rewrite (at_insert _ _ _ _ _ _ E). unfold isn. case_match; cbn; lia.
Qed.
Lemma one_send_emp o c s k :
  at_ o_emp (ones (fst (one_send o c s))) k ≤ at_ o_emp (ones s) k ∧
  (k = o → at_ o_emp (ones (fst (one_send o c s))) k = 0).
Proof.
  unfold one_send. destruct (ones s !! o) as [[rx st]|] eqn:E; cbn [fst].
  2: { split; [lia|]. intros ->. unfold at_. by rewrite E. }
  destruct rx, st; cbn [fst]; try (split; [lia|]; intros ->; unfold at_; by rewrite E).
  autorewrite with fr_ones. prj. rewrite (at_insert _ _ _ _ _ _ E).
  destruct (Nat.eqb_spec o k) as [->|]; cbn; (split; [lia|]); intros; [done|congruence].
Qed.
Lemma fulfill_handles ws m s k (n : nat) :
  at_ o_emp (ones s) k ≤ Σ (isn k) ws + n →
  let s' := fst (fulfill ws m s) in
  length (ones s') = length (ones s) ∧
  at_ o_used (ones s') k + Σ (isn k) (wrx s') ≤ at_ o_used (ones s) k + Σ (isn k) ws ∧
  at_ o_emp (ones s') k ≤ Σ (isn k) (wrx s') + n.
Proof.
  revert s; induction ws as [|o ws IH]; intros s He; simpl; [split_and!; done|].
  pose proof (one_send_len o (CNewMsg m) s) as H1.
  pose proof (one_send_used o (CNewMsg m) s k) as H2.
  pose proof (one_send_emp o (CNewMsg m) s k) as [H3 H4].
  assert (at_ o_emp (ones (fst (one_send o (CNewMsg m) s))) k ≤ Σ (isn k) ws + n) as He'.
  { simpl in He. unfold isn in He at 1. destruct (Nat.eqb_spec o k) as [->|].
    - rewrite H4 by done. lia. - lia. }
  destruct (one_send o (CNewMsg m) s) as [s' b] eqn:E; cbn [fst] in *.
  destruct b; cbn [fst].
  - prj. split_and!; [done|simpl in *; lia|done].
  - apply one_send_false in E as ->. destruct (IH s He') as (A & B & C).
    split_and!; [done|simpl; lia|done].
Qed.
Lemma one_sends_handles ws c s k (n : nat) :
  at_ o_emp (ones s) k ≤ Σ (isn k) ws + n →
  let s' := fold_left (λ s o, fst (one_send o c s)) ws s in
  length (ones s') = length (ones s) ∧
  at_ o_used (ones s') k ≤ at_ o_used (ones s) k + Σ (isn k) ws ∧
  at_ o_emp (ones s') k ≤ n.
Proof.
  revert s; induction ws as [|o ws IH]; intros s He; simpl; [split_and!; [done|lia|done]|].
  pose proof (one_send_len o c s) as H1.
  pose proof (one_send_used o c s k) as H2.
  pose proof (one_send_emp o c s k) as [H3 H4].
  destruct (IH (fst (one_send o c s))) as (A & B & C).
  { simpl in He. unfold isn in He at 1. destruct (Nat.eqb_spec o k) as [->|].
    - rewrite H4 by done. lia. - lia. }
  split_and!; [lia|simpl; lia|done].
Qed.
Lemma send_broadcast_handles m s k (n : nat) :
  at_ o_emp (ones s) k ≤ Σ (isn k) (wrx s) + n →
  let s' := send_broadcast m s in
  length (ones s') = length (ones s) ∧
  at_ o_used (ones s') k + Σ (isn k) (wrx s') ≤ at_ o_used (ones s) k + Σ (isn k) (wrx s) ∧
  at_ o_emp (ones s') k ≤ Σ (isn k) (wrx s') + n.
Proof.
  intros He. cbv zeta. unfold send_broadcast. cbv zeta.
  repeat (progress (prj; autorewrite with fr_wrx fr_ones)).
  set (s0 := set_wrx [] _).
  assert (ones s0 = ones s) as E0 by (subst s0; by repeat (progress (prj; autorewrite with fr_ones))).
  destruct (one_sends_handles (wrx s) CNewBroadcast s0 k n) as (A & B & C); [by rewrite E0|].
  rewrite E0 in *. split_and!; [done|simpl; lia|simpl; lia].
Qed.
Lemma pop_broadcast_handles b s k (n : nat) :
  at_ o_emp (ones s) k ≤ Σ (isn k) (wrx s) + n →
  let s' := fst (pop_broadcast b s) in
  length (ones s') = length (ones s) ∧
  at_ o_used (ones s') k + Σ (isn k) (wrx s') ≤ at_ o_used (ones s) k + Σ (isn k) (wrx s) ∧
  at_ o_emp (ones s') k ≤ Σ (isn k) (wrx s') + n.
Proof.
  intros He. cbv zeta. unfold pop_broadcast. destruct (heap_pop _ _) as [[m h]|]; [|split_and!; done]. cbv zeta.
  case_match; cbn [fst].
  { repeat (progress (prj; autorewrite with fr_wrx fr_ones)). split_and!; done. }
  match goal with |- context [take_waitingA ?x] => dpair (take_waitingA x) end.
  destruct r1; cbn [fst].
  - pose proof (send_broadcast_handles b0 (fst (take_waitingA
      (set_tail (longest_broadcast_queue (bq_put b h s)) (bq_put b h s)))) k n) as HB.
    repeat (progress (autorewrite with fr_wrx fr_ones in HB; cbn [wrx ones set_tail] in HB)).
    by apply HB.
  - repeat (progress (prj; autorewrite with fr_wrx fr_ones)). split_and!; done.
Qed.

Lemma close_ones_handles ws s k (n : nat) :
  at_ o_emp (ones s) k ≤ Σ (isn k) ws + n →
  let s' := fold_left close_one ws s in
  length (ones s') = length (ones s) ∧
  at_ o_used (ones s') k ≤ at_ o_used (ones s) k + Σ (isn k) ws ∧
  at_ o_emp (ones s') k ≤ n.
Proof.
  revert s; induction ws as [|o ws IH]; intros s He; simpl; [split_and!; [done|lia|done]|].
  assert (length (ones (close_one s o)) = length (ones s) ∧
          at_ o_used (ones (close_one s o)) k ≤ at_ o_used (ones s) k + isn k o ∧
          at_ o_emp (ones (close_one s o)) k ≤ Σ (isn k) ws + n) as (A1 & A2 & A3).
  { simpl in He. unfold close_one, isn in *. destruct (ones s !! o) as [[rx []]|] eqn:E.
    1: { autorewrite with fr_ones. prj. rewrite insert_length. split; [done|].
         rewrite !(at_insert _ _ _ _ _ _ E). destruct (Nat.eqb_spec o k); cbn; [destruct rx; cbn|]; lia. }
    all: split; [done|]; split; [lia|]; destruct (Nat.eqb_spec o k) as [->|]; [|lia];
      unfold at_ in *; rewrite E in *; cbn in *; try destruct rx; lia. }
  destruct (IH (close_one s o)) as (A & B & C); [done|].
  split_and!; [lia|simpl; lia|done].
Qed.

Lemma sum_notify_no i l : Σ (g_no i) (map UTxNotify l) = Σ (isn i) l.
Proof. induction l; simpl; congruence. Qed.

Lemma reach_handle s : reach s → InvHandle s.
Proof.
  revert s. apply reach_inv; unfold InvHandle.
  - intros c o. unfold at_. cbn. destruct o; cbn; lia.
  - intros s o Hr I i. specialize (I i). destruct I as [I1 I2].
    split; do_api o ltac:(autorewrite with fr_ones fr_wrx).
  - intros s t u rest s1 new Hr I Ht E Hthr i.
    pose proof (msum_step (g_no i) s t u rest new s1 Ht Hthr) as HM.
    pose proof (msum_head (g_no i) s t u rest Ht) as HH.
    revert HM. generalize (msum (g_no i) (set_thr (<[t:=new ++ rest]> (thr s1)) s1)). intros n HM.
    prj. clear Hthr.
    pose proof (I i) as [I1 I2].
    exec_cases u E; repeat (progress (prj; autorewrite with fr_wrx fr_ones)).
    all: rewrite ?sum_list_with_app, ?sum_notify_no in HM; unfold rx_drop, payload_drop, tx_drop in *;
      repeat match type of HM with context [match ?x with _ => _ end] => destruct x end;
      cbn -[Nat.eqb] in HM.
    all: try (split; lia).
    all: try match goal with
      | |- context [try_fulfill_receiver ?m ?x] =>
          destruct (fulfill_handles (wrx x) m x i (msum (g_no i) x) I2) as (A & B & C);
          unfold try_fulfill_receiver in *; rewrite ?A; split; lia
      | |- context [send_broadcast ?m ?x] =>
          destruct (send_broadcast_handles m x i (msum (g_no i) x) I2) as (A & B & C);
          rewrite ?A; split; cbn in *; lia
      | |- context [pop_broadcast ?m ?x] =>
          destruct (pop_broadcast_handles m x i (msum (g_no i) x) I2) as (A & B & C);
          rewrite ?A; split; lia
      end.
    all: sums; rewrite ?insert_length, ?app_length; cbn [length]; rewrite ?Nat.add_1_r, ?lt1_S.
    all: try (unfold isn in *; fin; done).
    1: { rewrite one_send_len. pose proof (one_send_used o CShutdown s i).
         pose proof (one_send_emp o CShutdown s i) as [H1 H2]. unfold isn in HM at 1, H.
         unfold isn in H. destruct (Nat.eqb_spec o i) as [->|]; [rewrite H2 in * by done|]; split; lia. }
    destruct (send_broadcast_handles (BStop (nbm s)) (set_nbm (S (nbm s)) s) i (msum (g_no i) s) I2)
      as (A & B & C). cbn in *. rewrite A. split; lia.
  - intros s Hr I Ho i. rewrite (msum_eq _ s) by (autorewrite with fr_thr; done).
    destruct (I i) as [I1 I2]. unfold free_chan. cbv zeta.
    repeat (progress (prj; autorewrite with fr_ones fr_wrx)).
    match goal with |- context [fold_left close_one ?l ?x] =>
      destruct (close_ones_handles l x i (msum (g_no i) s)) as (A & B & C) end.
    { repeat (progress (prj; autorewrite with fr_ones fr_wrx)). done. }
    revert A B C. repeat (progress (prj; autorewrite with fr_ones fr_wrx)). intros A B C.
    rewrite A. simpl. split; lia.
Qed.
