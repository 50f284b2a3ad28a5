(** A future that is being polled is polled by exactly one call in progress. *)
From stdpp Require Import base numbers list list_numbers.
From Coq Require Import Lia.
From Verif Require Import Prio Heap State Model Frame Lib.

(** ** Send futures *)
Definition g_sf (f : nat) (u : micro) : nat :=
  match u with
  | USendLd1 g _ _ | USendLd2 g _ _ | USendLock g _ _ | USendCell1 g _ | USendCellA g _ | USendOk g | USendErr g
  | UReplyPoll g _ => if g =? f then 1 else 0
  | _ => 0
  end.

Definition isbusy (sf : sfut) : nat := match sf_st sf with SBusy => 1 | _ => 0 end.

Definition InvBusyF (s : state) : Prop := ∀ f, msum (g_sf f) s = at_ isbusy (sfs s) f.

Lemma g_sf_tx f k : Σ (g_sf f) (tx_drop k) = 0.
Proof. by destruct k. Qed.
Lemma g_sf_pd f p y : Σ (g_sf f) (payload_drop p y) = 0.
Proof. by destruct p. Qed.
Lemma g_sf_ad f p y : Σ (g_sf f) (amsg_drop p y) = 0.
Proof. by destruct p. Qed.
Lemma g_sf_notify f l : Σ (g_sf f) (map UTxNotify l) = 0.
Proof. induction l; done. Qed.
Lemma g_sf_sfd f sf p : sf_drop sf = Some p → Σ (g_sf f) p = 0 ∧ isbusy sf = 0.
Proof.
  unfold sf_drop, isbusy. destruct sf as [x md ? ?]; cbn.
  destruct x as [pl k| |c| |], md as [m|[m|]|]; try done; intros [= <-];
    rewrite ?sum_list_with_app, ?g_sf_tx, ?g_sf_pd; done.
Qed.
Lemma g_sf_hd f h p : hol_drop h = Some p → Σ (g_sf f) p = 0.
Proof.
  unfold hol_drop. case_match; try done; intros [= <-]; unfold rx_drop; simpl;
    rewrite ?sum_list_with_app, ?g_sf_ad; done.
Qed.


Lemma reach_busyF s : reach s → InvBusyF s.
Proof.
  revert s. apply reach_inv.
  - intros c f. done.
  - intros s o Hr I f. specialize (I f).
    destruct o; cbn [api]; repeat (dgoal; try done); cbv zeta;
      repeat match goal with
      | H : sf_drop _ = Some _ |- _ => apply (g_sf_sfd f) in H as [? ?]
      | H : hol_drop _ = Some _ |- _ => apply (g_sf_hd f) in H
      end;
      unfold emit; rewrite ?msum_call;
      repeat (progress (prj; autorewrite with fr_sfs));
      unfold msum in *; repeat (progress (prj; autorewrite with fr_thr)); sums; fin.
    all: try (rewrite ?g_sf_tx; unfold rx_drop; simpl; lia).
    all: try (rewrite at_ge in I by lia; lia).
  - intros s t u rest s1 new Hr I Ht E Hthr f.
    pose proof (I f) as If.
    assert (∀ f, at_ isbusy (sfs s) f ≤ 1) as Hb1
      by (intros; apply at_bound; intros [[] ? ? ?]; cbn; lia).
    pose proof (msum_step (g_sf f) s t u rest new s1 Ht Hthr) as HM.
    pose proof (msum_head (g_sf f) s t u rest Ht) as HH.
    revert HM. generalize (msum (g_sf f) (set_thr (<[t:=new ++ rest]> (thr s1)) s1)). intros n HM.
    cbn [sfs set_thr]. clear Hthr.
    exec_cases u E; repeat (progress (prj; autorewrite with fr_sfs));
      rewrite ?sum_list_with_app, ?g_sf_tx, ?g_sf_pd, ?g_sf_notify in HM; try (cbn in *; lia).
    all: sums.
    all: tok I g_sf; tok Hb1 g_sf.
    all: fin.
  - intros s Hr I Ho f. rewrite (msum_eq _ s) by (autorewrite with fr_thr; done).
    autorewrite with fr_sfs. apply I.
Qed.

(** What [SBusy] means for the executed action. *)
Lemma busyF_at s t u rest f :
  reach s → thr s !! t = Some (u :: rest) → g_sf f u = 1 →
  ∃ sf, sfs s !! f = Some sf ∧ sf_st sf = SBusy.
Proof.
  intros Hr Ht Hg. pose proof (reach_busyF s Hr f) as H.
  pose proof (msum_head (g_sf f) s t u rest Ht) as HH.
  destruct (at_pos isbusy (sfs s) f) as (sf & Hf & Hb); [lia|].
  exists sf. split; [done|]. unfold isbusy in Hb. destruct (sf_st sf); try lia; done.
Qed.

(** ** Receive futures *)
Definition g_rf (r : nat) (u : micro) : nat :=
  match u with
  | UTryRecv g | UPollOne g _ | UNextBc g => if g =? r then 1 else 0
  | _ => 0
  end.

Definition isrbusy (h : holder) : nat := match h_st h with HRecvBusy => 1 | _ => 0 end.

Definition InvBusyR (s : state) : Prop := ∀ r, msum (g_rf r) s = at_ isrbusy (hols s) r.

Lemma g_rf_tx f k : Σ (g_rf f) (tx_drop k) = 0.
Proof. by destruct k. Qed.
Lemma g_rf_pd f p y : Σ (g_rf f) (payload_drop p y) = 0.
Proof. by destruct p. Qed.
Lemma g_rf_ad f p y : Σ (g_rf f) (amsg_drop p y) = 0.
Proof. by destruct p. Qed.
Lemma g_rf_rd f b : Σ (g_rf f) (rx_drop b) = 0.
Proof. done. Qed.
Lemma g_rf_notify f l : Σ (g_rf f) (map UTxNotify l) = 0.
Proof. induction l; done. Qed.
Lemma g_rf_sfd f sf p : sf_drop sf = Some p → Σ (g_rf f) p = 0.
Proof.
  unfold sf_drop. destruct sf as [x md ? ?]; cbn.
  destruct x as [pl k| |c| |], md as [m|[m|]|]; try done; intros [= <-];
    rewrite ?sum_list_with_app, ?g_rf_tx, ?g_rf_pd; done.
Qed.
Lemma g_rf_hd f h p : hol_drop h = Some p → Σ (g_rf f) p = 0 ∧ isrbusy h = 0.
Proof.
  unfold hol_drop, isrbusy. case_match; try done; intros [= <-]; unfold rx_drop; simpl;
    rewrite ?sum_list_with_app, ?g_rf_ad; done.
Qed.

Lemma reach_busyR s : reach s → InvBusyR s.
Proof.
  revert s. apply reach_inv.
  - intros c [|f]; done.
  - intros s o Hr I f. specialize (I f).
    destruct o; cbn [api]; repeat (dgoal; try done); cbv zeta;
      repeat match goal with
      | H : sf_drop _ = Some _ |- _ => apply (g_rf_sfd f) in H
      | H : hol_drop _ = Some _ |- _ => apply (g_rf_hd f) in H as [? ?]
      end;
      unfold emit; rewrite ?msum_call;
      repeat (progress (prj; autorewrite with fr_hols));
      unfold msum in *; repeat (progress (prj; autorewrite with fr_thr)); sums; fin.
    all: try (rewrite ?g_rf_tx; unfold rx_drop; simpl; lia).
    all: try (rewrite at_ge in I by lia; lia).
  - intros s t u rest s1 new Hr I Ht E Hthr f.
    pose proof (I f) as If.
    assert (∀ f, at_ isrbusy (hols s) f ≤ 1) as Hb1
      by (intros; apply at_bound; intros [? [] ? ?]; cbn; lia).
    pose proof (msum_step (g_rf f) s t u rest new s1 Ht Hthr) as HM.
    pose proof (msum_head (g_rf f) s t u rest Ht) as HH.
    revert HM. generalize (msum (g_rf f) (set_thr (<[t:=new ++ rest]> (thr s1)) s1)). intros n HM.
    cbn [hols set_thr]. clear Hthr.
    exec_cases u E; repeat (progress (prj; autorewrite with fr_hols));
      rewrite ?sum_list_with_app, ?g_rf_tx, ?g_rf_pd, ?g_rf_notify in HM; try (cbn in *; lia).
    all: sums.
    all: tok I g_rf; tok Hb1 g_rf.
    all: fin.
    all: rewrite ?at_ge in * by lia; lia.
  - intros s Hr I Ho f. rewrite (msum_eq _ s) by (autorewrite with fr_thr; done).
    autorewrite with fr_hols. apply I.
Qed.

Lemma busyR_at s t u rest r :
  reach s → thr s !! t = Some (u :: rest) → g_rf r u = 1 →
  ∃ h, hols s !! r = Some h ∧ h_st h = HRecvBusy.
Proof.
  intros Hr Ht Hg. pose proof (reach_busyR s Hr r) as H.
  pose proof (msum_head (g_rf r) s t u rest Ht) as HH.
  destruct (at_pos isrbusy (hols s) r) as (h & Hf & Hb); [lia|].
  exists h. split; [done|]. unfold isrbusy in Hb. destruct (h_st h); try lia; done.
Qed.
