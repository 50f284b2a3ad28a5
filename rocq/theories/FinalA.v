(** Proofs of the properties about unicast messages, counts and waiting. *)
From stdpp Require Import base numbers list list_numbers.
From Coq Require Import Lia.
From Verif Require Import Prio Heap State Model HeapProofs Frame Lib InvBusy InvCount Effects InvMsg InvMsg2
  InvHeap InvOne InvOne2 InvDisc InvWait InvWait2 InvFut InvCell WaitSpec InvWs InvBlk Mono InvSend InvErr Spec Bridge.

(** ** Conservation *)
Definition d_any (y : why) : nat := match y with DSendDropped | DDisconnected | DClosed => 0 | _ => 1 end.

Lemma once s m : reach s →
  times (received m) s ≤ 1 ∧ times (handled m) s ≤ times (received m) s ∧ times (finished m) s ≤ times (handled m) s.
Proof.
  intros Hr. unfold times. rewrite (cnt_sum (e_recv m) (received m)), (cnt_sum (e_handle m) (handled m)), (cnt_sum (e_done m) (finished m)) by b2n.
  pose proof (reach_A s Hr m) as HA. pose proof (reach_B s Hr m) as HB. pose proof (reach_C s Hr m) as HC. pose proof (reach_D s Hr m) as HD.
  assert (Σ (e_acc m) (log s) ≤ Σ (e_pre m) (log s)) by (apply sum_le; intros []; cbn; lia).
  assert (Σ (e_recv m) (log s) ≤ Σ (e_mid m) (log s)) by (apply sum_le; intros []; cbn; lia).
  assert (Σ (e_handle m) (log s) ≤ Σ (e_msg m) (log s)) by (apply sum_le; intros []; cbn; lia).
  assert (Σ (e_done m) (log s) ≤ Σ (e_run m) (log s)) by (apply sum_le; intros []; cbn; lia).
  unfold lt1 in HA. destruct (_ <? _); lia.
Qed.

Lemma split_ev (g h k : ev → nat) l : (∀ e, g e = h e + k e) → Σ g l = Σ h l + Σ k l.
Proof. intros H. rewrite <-sum_add. apply sum_ext. intros; apply H. Qed.

Lemma in_drop_sum d ys m s : (∀ y, d y = b2n (ys y)) → in_drop ys m s = msum (g_drop d m) s.
Proof.
  intros H. apply todo_sum. intros []; cbn; try done. rewrite H. unfold is, isn, b2n. by repeat case_match.
Qed.
Lemma dropped_sum d ys m s : (∀ y, d y = b2n (ys y)) → times (dropped ys m) s = Σ (e_drop d m) (log s).
Proof.
  intros H. apply cnt_sum. intros []; cbn; try done. rewrite H. unfold is, isn, b2n. by repeat case_match.
Qed.

(** Every message that was created is in exactly one place. *)
Lemma somewhere s m : reach s → m < length (reps s) →
  cnt (λ x, match sf_st x with SNew (PU k) _ => um_id k =? m | _ => false end) (sfs s)
  + todo (λ u, match u with USendLd1 _ (PU k) _ | USendLd2 _ (PU k) _ | USendLock _ (PU k) _ => um_id k =? m | _ => false end) s
  + blocked m s
  + in_drop before_accept m s + times (dropped before_accept m) s
  + in_queue m s + in_flight m s + in_requeue m s
  + in_drop before_receive m s + times (dropped before_receive m) s
  + held m s + running m s
  + in_drop by_program m s + times (dropped by_program m) s
  + times (finished m) s = 1 ∧
  times (accepted m) s =
  in_queue m s + in_flight m s + in_requeue m s
  + in_drop before_receive m s + times (dropped before_receive m) s
  + held m s + running m s
  + in_drop by_program m s + times (dropped by_program m) s
  + times (finished m) s.
Proof.
  intros Hr Hm.
  pose proof (reach_A s Hr m) as HA. pose proof (reach_B s Hr m) as HB. pose proof (reach_C s Hr m) as HC. pose proof (reach_D s Hr m) as HD.
  set (g_snd := λ u, match u with USendLd1 _ (PU k) _ | USendLd2 _ (PU k) _ | USendLock _ (PU k) _ => is m k | _ => 0 end).
  set (g_rq := λ u, match u with URequeue x => is m x | _ => 0 end).
  rewrite (cnt_sum (f_pre m) _ (sfs s)) by b2n.
  rewrite (todo_sum g_snd) by (subst g_snd; b2n).
  assert (blocked m s = Σ (ccell (is m)) (cells1 s)) as -> by (apply cnt_sum; b2n).
  rewrite (in_drop_sum d_pre before_accept), (in_drop_sum d_mid before_receive), (in_drop_sum (λ y, d_msg y + d_run y) by_program) by (by intros []).
  rewrite (dropped_sum d_pre before_accept), (dropped_sum d_mid before_receive), (dropped_sum (λ y, d_msg y + d_run y) by_program) by (by intros []).
  assert (in_queue m s = Σ (is m) (uq s)) as -> by (apply cnt_sum; b2n).
  assert (in_flight m s = Σ (oone (is m)) (ones s)) as -> by (apply cnt_sum; b2n).
  assert (in_requeue m s = msum g_rq s) as -> by (apply todo_sum; subst g_rq; b2n).
  assert (held m s = Σ (h_msg m) (hols s)) as -> by (apply cnt_sum; b2n).
  assert (running m s = Σ (h_runs m) (hols s)) as -> by (apply cnt_sum; b2n).
  assert (times (finished m) s = Σ (e_done m) (log s)) as -> by (apply cnt_sum; b2n).
  assert (times (accepted m) s = Σ (e_acc m) (log s)) as -> by (apply cnt_sum; b2n).
  assert (∀ g h k, (∀ u, g u = h u + k u) → msum g s = msum h s + msum k s) as Hms.
  { intros g h k H. unfold msum. rewrite <-sum_add. apply sum_ext. intros l _. rewrite <-sum_add. apply sum_ext. intros; apply H. }
  rewrite (Hms (g_pre m) g_snd (g_drop d_pre m)) in HA by (subst g_snd; intros []; cbn; repeat case_match; lia).
  rewrite (Hms (g_mid m) g_rq (g_drop d_mid m)) in HB by (subst g_rq; intros []; cbn; lia).
  rewrite (Hms (g_drop (λ y, d_msg y + d_run y) m) (g_msg m) (g_run m)) by (intros []; cbn; lia).
  rewrite (split_ev (e_pre m) (e_acc m) (e_drop d_pre m)) in HA by (intros []; cbn; lia).
  rewrite (split_ev (e_mid m) (e_recv m) (e_drop d_mid m)) in HB by (intros []; cbn; repeat case_match; lia).
  rewrite (split_ev (e_msg m) (e_handle m) (e_drop d_msg m)) in HC by (intros []; cbn; repeat case_match; lia).
  rewrite (split_ev (e_run m) (e_done m) (e_drop d_run m)) in HD by (intros []; cbn; repeat case_match; lia).
  rewrite (split_ev (e_drop (λ y, d_msg y + d_run y) m) (e_drop d_msg m) (e_drop d_run m)) by (intros []; cbn; lia).
  unfold lt1 in HA. destruct (Nat.ltb_spec m (length (reps s))); [|lia]. lia.
Qed.
