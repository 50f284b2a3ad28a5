(** Reply channels: a handler's result reaches the sender of its message, and a message that is
    dropped closes its reply channel. *)
From stdpp Require Import base numbers list list_numbers.
From Coq Require Import Lia.
From Verif Require Import Prio Heap State Model HeapProofs Frame Lib InvBusy InvCount Effects InvMsg InvMsg2 InvFut Mono InvErr Events Wake InvSmall.

(** ** Closing reply channels *)
Definition closes (m : nat) (s s' : state) : Prop :=
  wx s s' ∧ ∃ k, log s' = k ++ log s ∧
  ((reps s' !! m = reps s !! m ∧ ((∃ y, EvDrop m y ∈ k) → ∀ rx w, reps s !! m ≠ Some (RP rx (REmpty w)))) ∨
   (∃ rx w y, reps s !! m = Some (RP rx (REmpty w)) ∧ reps s' !! m = Some (RP rx RClosed) ∧ EvDrop m y ∈ k ∧
      ∀ n, w = Some n → n ∈ wakes s')).
Lemma closes_eq m s s' : reps s' = reps s → log s' = log s → wx s s' → closes m s s'.
Proof.
  intros H1 H2 H3. split; [done|]. exists []. split; [done|]. left. split; [by rewrite H1|]. by intros [y ?%elem_of_nil].
Qed.
Lemma closes_trans m s1 s2 s3 : closes m s1 s2 → closes m s2 s3 → closes m s1 s3.
Proof.
  intros [W1 (k1 & L1 & R1)] [W2 (k2 & L2 & R2)]. split; [by eapply wx_trans|]. exists (k2 ++ k1).
  split; [by rewrite L2, L1, app_assoc|].
  destruct R1 as [[E1 D1]|(rx & w & y & E1 & E1' & D1 & H1)], R2 as [[E2 D2]|(rx2 & w2 & y2 & E2 & E2' & D2 & H2)].
  - left. split; [congruence|]. intros [y [H|H]%elem_of_app] rx w; [|by eapply D1; eauto]. rewrite <-E1. by eapply D2; eauto.
  - right. exists rx2, w2, y2. split_and!; [congruence|done|apply elem_of_app; by left|done].
  - right. exists rx, w, y. split_and!; [done|congruence|apply elem_of_app; by right|]. intros n Hn. eapply wx_in; eauto.
  - congruence.
Qed.
Lemma drop_umsg_closes m y x s : closes m s (drop_umsg y x s).
Proof.
  split; [apply drop_umsg_wx|]. exists [EvDrop (um_id x) y]. split; [by rewrite drop_umsg_log|].
  unfold drop_umsg. autorewrite with fr_reps. unfold close_reply.
  destruct (reps s !! um_id x) as [[rx st]|] eqn:E.
  2: { left. split; [done|]. intros [y' [= -> ->]%elem_of_list_singleton] rx w. by rewrite E. }
  destruct st as [w| | |];
    try (left; split; [done|]; intros [y' [= -> ->]%elem_of_list_singleton] rx' w; rewrite E; done).
  destruct (decide (m = um_id x)) as [->|Hne].
  - right. exists rx, w, y. split_and!; [done| |by left|].
    + autorewrite with fr_reps. prj. by rewrite list_lookup_insert by (by eapply lookup_lt_Some).
    + intros n ->. prj. by left.
  - left. split; [autorewrite with fr_reps; prj; by rewrite list_lookup_insert_ne|].
    intros [y' [= ? ?]%elem_of_list_singleton]. done.
Qed.
Lemma closes_fold {A} m (f : state → A → state) l s : (∀ s a, closes m s (f s a)) → closes m s (fold_left f l s).
Proof.
  intros H. revert s; induction l as [|a l IH]; intros s; cbn; [by apply closes_eq, wx_eq|]. eapply closes_trans; [apply H|apply IH].
Qed.
Lemma drop_umsgs_closes m y l s : closes m s (drop_umsgs y l s).
Proof. apply closes_fold. intros. apply drop_umsg_closes. Qed.
Lemma close_handle1_closes m s c : closes m s (close_handle1 s c).
Proof.
  unfold close_handle1. destruct (cells1 s !! c) as [[[] []]|]; try by apply closes_eq, wx_eq.
  eapply closes_trans; [|apply drop_umsg_closes]. apply closes_eq; [by autorewrite with fr_reps|by autorewrite with fr_log|].
  eapply wx_l; [|apply wake_wx]. done.
Qed.
Lemma close_handleA_closes m s c : closes m s (close_handleA s c).
Proof. apply closes_eq; [by autorewrite with fr_reps|by autorewrite with fr_log|apply close_handleA_wx]. Qed.
Lemma close_one_closes m s c : closes m s (close_one s c).
Proof. apply closes_eq; [by autorewrite with fr_reps|by autorewrite with fr_log|apply close_one_wx]. Qed.
Lemma closes_r m s s' x : reps s = reps s' → log s = log s' → wakes s = wakes s' → closes m x s' → closes m x s.
Proof. intros H1 H2 H3 [W (k & L & R)]. split; [by eapply wx_r|]. exists k. by rewrite H1, H2, H3. Qed.
Lemma closes_l m s s' x : reps s = reps s' → log s = log s' → wakes s = wakes s' → closes m s' x → closes m s x.
Proof. intros H1 H2 H3 [W (k & L & R)]. split; [by eapply wx_l|]. exists k. by rewrite H1, H2. Qed.
Ltac crefl := repeat (progress (prj; autorewrite with fr_reps fr_log fr_wakes)); reflexivity.
Lemma rx_shutdown_closes m s : closes m s (exec_rx_shutdown s).
Proof.
  unfold exec_rx_shutdown. cbv zeta.
  eapply closes_trans; [|apply closes_fold, close_handleA_closes]. eapply closes_r; [prj; reflexivity..|].
  eapply closes_trans; [|apply closes_fold, close_handle1_closes]. eapply closes_r; [prj; reflexivity..|].
  eapply closes_trans; [|apply drop_umsgs_closes]. eapply closes_r; [prj; reflexivity..|].
  apply closes_eq; [by autorewrite with fr_reps|by autorewrite with fr_log|apply listeners_wx].
Qed.
Lemma free_closes m s : closes m s (free_chan s).
Proof.
  unfold free_chan. cbv zeta. eapply closes_r; [prj; reflexivity..|].
  eapply closes_trans; [|apply drop_umsgs_closes]. eapply closes_r; [prj; reflexivity..|].
  eapply closes_trans; [|apply closes_fold, close_one_closes]. eapply closes_r; [prj; reflexivity..|].
  eapply closes_trans; [|apply closes_fold, close_handleA_closes]. eapply closes_r; [prj; reflexivity..|].
  eapply closes_l; [..|apply closes_fold, close_handle1_closes]; done.
Qed.

(** ** Everything that happens to a reply channel *)
Lemma exec_reps m u s s1 new : exec u s = (s1, new) →
  closes m s s1 ∨
  (∃ v w, u = UReply m v ∧ reps s !! m = Some (RP true (REmpty w)) ∧ reps s1 !! m = Some (RP true (RVal v)) ∧
     log s1 = log s ∧ ∀ n, w = Some n → n ∈ wakes s1) ∨
  (∃ rx x, u = URepDrop m ∧ reps s !! m = Some (RP rx x) ∧ reps s1 !! m = Some (RP false x) ∧ log s1 = log s) ∨
  (∃ rx w w' e, reps s !! m = Some (RP rx (REmpty w)) ∧ reps s1 !! m = Some (RP rx (REmpty (Some w'))) ∧ log s1 = e :: log s ∧
     ((∃ f sf, u = UReplyPoll f m ∧ e = EvSend f OPending ∧ sfs s !! f = Some sf ∧ w' = sf_wk sf) ∨
      (∃ x rc, u = URcvPoll x ∧ e = EvReceiver x OPending ∧ rcvs s !! x = Some rc ∧ rc_m rc = m ∧ w' = rc_wk rc))) ∨
  (∃ rx v e, reps s !! m = Some (RP rx (RVal v)) ∧ reps s1 !! m = Some (RP rx RTaken) ∧ log s1 = e :: log s ∧
     ((∃ f, u = UReplyPoll f m ∧ e = EvSend f (OValue v)) ∨
      (∃ x rc, u = URcvPoll x ∧ e = EvReceiver x (OValue v) ∧ rcvs s !! x = Some rc ∧ rc_m rc = m))).
Proof.
  intros E.
  assert (∀ k, log s1 = k ++ log s → reps s1 !! m = reps s !! m → (∀ y, EvDrop m y ∉ k) → closes m s s1) as H0.
  { intros k Hl Hr Hk. split; [by eapply exec_wx|]. exists k. split; [done|]. left. split; [done|]. intros [y Hy]. by destruct (Hk y). }
  pose proof (exec_evs _ _ _ _ E) as (k & Hk & Hs).
  destruct u; cbn [exec] in E.
  5: { injection E as <- <-. left. apply rx_shutdown_closes. }
  all: try (left; apply (H0 k);
    [done| |intros y Hy; apply Hs in Hy; destruct Hy as [[? _]|(? & ? & _)]; done];
    unfold exec_try_recv, exec_poll_one, exec_send_lock, exec_send_cell1, exec_send_cellA, exec_send_ok, exec_cancel, panic_recv, panic_send in E;
    repeat (dmatch E; cbv zeta in E); injection E as <- <-; by repeat (progress (prj; autorewrite with fr_reps))).
  5: { injection E as <- <-. left. apply drop_umsg_closes. }
  all: assert (reps s1 !! m = reps s !! m → closes m s s1) as H1
    by (intros ?; apply (H0 k); [done..|]; intros y Hy; apply Hs in Hy; destruct Hy as [[? _]|(? & ? & _)]; done); clear H0 Hk Hs.
  - destruct (reps s !! m0) as [[rx x]|] eqn:Em; injection E as <- <-; [|left; by apply H1].
    destruct (decide (m0 = m)) as [->|]; [|left; apply H1; prj; by rewrite list_lookup_insert_ne].
    right; right; left. exists rx, x. prj. rewrite list_lookup_insert by (by eapply lookup_lt_Some). done.
  - destruct (rcvs s !! x) as [rc|] eqn:Ex; [|injection E as <- <-; left; by apply H1].
    unfold poll_reply in E. destruct (reps s !! rc_m rc) as [[rx [w|v| |]]|] eqn:Em; injection E as <- <-; try (left; by apply H1).
    + destruct (decide (rc_m rc = m)) as [<-|]; [|left; apply H1; prj; by rewrite list_lookup_insert_ne].
      right; right; right; left. exists rx, w, (rc_wk rc), (EvReceiver x OPending). prj.
      rewrite list_lookup_insert by (by eapply lookup_lt_Some). split_and!; try done. right. by exists x, rc.
    + destruct (decide (rc_m rc = m)) as [<-|]; [|left; apply H1; prj; by rewrite list_lookup_insert_ne].
      right; right; right; right. exists rx, v, (EvReceiver x (OValue v)). prj.
      rewrite list_lookup_insert by (by eapply lookup_lt_Some). split_and!; try done. right. by exists x, rc.
  - destruct (sfs s !! f) as [sf|] eqn:Ex; [|injection E as <- <-; left; by apply H1].
    unfold poll_reply in E. destruct (reps s !! m0) as [[rx [w|v| |]]|] eqn:Em; injection E as <- <-;
      try (left; apply H1; by autorewrite with fr_reps).
    + destruct (decide (m0 = m)) as [<-|]; [|left; apply H1; autorewrite with fr_reps; prj; by rewrite list_lookup_insert_ne].
      right; right; right; left. exists rx, w, (sf_wk sf), (EvSend f OPending). autorewrite with fr_reps fr_log. prj.
      rewrite list_lookup_insert by (by eapply lookup_lt_Some). split_and!; try done. left. by exists f, sf.
    + destruct (decide (m0 = m)) as [<-|]; [|left; apply H1; autorewrite with fr_reps; prj; by rewrite list_lookup_insert_ne].
      right; right; right; right. exists rx, v, (EvSend f (OValue v)). autorewrite with fr_reps fr_log. prj.
      rewrite list_lookup_insert by (by eapply lookup_lt_Some). split_and!; try done. left. by exists f.
  - destruct (reps s !! m0) as [[[] [w|w| |]]|] eqn:Em; injection E as <- <-; try (left; by apply H1).
    destruct (decide (m0 = m)) as [<-|]; [|left; apply H1; autorewrite with fr_reps; prj; by rewrite list_lookup_insert_ne].
    right; left. exists v, w. autorewrite with fr_reps fr_log. prj.
    rewrite list_lookup_insert by (by eapply lookup_lt_Some). split_and!; try done. intros n ->. by left.
Qed.

Lemma api_reps m o s : reps (api o s) !! m = reps s !! m ∨
  (m = length (reps s) ∧ reps s !! m = None ∧ reps (api o s) !! m = Some (RP true (REmpty None)) ∧ ∃ a, o = ASend a).
Proof.
  destruct o; cbn [api]; repeat (dgoal; try by left); cbv zeta; unfold add_addr; repeat dgoal;
    repeat (progress (prj; autorewrite with fr_reps)); try by left.
  all: destruct (decide (m < length (reps s))); [left; by rewrite lookup_app_l|].
  all: destruct (decide (m = length (reps s))) as [->|];
    [right; split_and!; [done|by apply lookup_ge_None|by rewrite lookup_app_r, Nat.sub_diag by lia|by eexists]|].
  all: left; rewrite !(proj2 (lookup_ge_None _ _)); [done|lia|rewrite app_length; cbn; lia].
Qed.

(** ** Values *)
Definition g_rp (m : nat) (u : micro) : nat := match u with UReply x _ => isn m x | _ => 0 end.
Definition e_end (m : nat) (e : ev) : nat := match e with EvDrop x _ | EvDone x _ => isn m x | _ => 0 end.

(** Messages that do not exist yet have no history. *)
Lemma end_lt s m : reach s → length (reps s) ≤ m → Σ (e_end m) (log s) = 0.
Proof.
  intros Hr Hm.
  pose proof (reach_A s Hr m) as HA. pose proof (reach_B s Hr m) as HB. pose proof (reach_C s Hr m) as HC. pose proof (reach_D s Hr m) as HD.
  assert (Σ (e_acc m) (log s) ≤ Σ (e_pre m) (log s)) by (apply sum_le; intros []; cbn; lia).
  assert (Σ (e_recv m) (log s) ≤ Σ (e_mid m) (log s)) by (apply sum_le; intros []; cbn; lia).
  assert (Σ (e_handle m) (log s) ≤ Σ (e_msg m) (log s)) by (apply sum_le; intros []; cbn; lia).
  assert (Σ (e_end m) (log s) ≤ Σ (e_pre m) (log s) + (Σ (e_mid m) (log s) + (Σ (e_msg m) (log s) + Σ (e_run m) (log s)))).
  { rewrite <-!sum_add. apply sum_le. intros []; cbn; try lia. destruct y; cbn; lia. }
  unfold lt1 in HA. destruct (Nat.ltb_spec m (length (reps s))); lia.
Qed.

(** A reply channel is open only as long as its message is alive, or its result is about to
    be sent. *)
Definition InvOpen (s : state) : Prop := ∀ m w, reps s !! m = Some (RP true (REmpty w)) → Σ (e_end m) (log s) ≤ msum (g_rp m) s.
Lemma reach_open s : reach s → InvOpen s.
Proof.
  revert s. apply reach_inv; unfold InvOpen.
  - done.
  - intros s o Hr I m w H.
    assert (Σ (e_end m) (log (api o s)) + msum (g_rp m) s = msum (g_rp m) (api o s) + Σ (e_end m) (log s)) as HE.
    { clear. do_api o ltac:(autorewrite with fr_log). all: unfold isn; lia. }
    destruct (api_reps m o s) as [Hq|(-> & _ & _ & a & ->)].
    + rewrite Hq in H. specialize (I _ _ H). lia.
    + rewrite (end_lt s) in HE by done. lia.
  - intros s t u rest s1 new Hr I Ht E Hthr m w H. prj. cbn in H.
    pose proof (msum_step (g_rp m) _ _ _ _ new _ Ht Hthr) as HM.
    assert (∀ k, log s1 = k ++ log s → (∀ y, EvDrop m y ∉ k) → Σ (e_end m) (log s1) = Σ (e_end m) (log s)) as HL.
    { intros k Hk Hd. destruct (exec_evs _ _ _ _ E) as (k' & Hk' & Hs). assert (k' = k) as ->.
      { rewrite Hk in Hk'. by apply app_inv_tail in Hk'. }
      rewrite Hk, sum_list_with_app. rewrite sum_zero; [done|]. intros e He. pose proof (Hs _ He) as Hse.
      destruct e; cbn in *; try done. unfold isn. destruct (Nat.eqb_spec m0 m) as [->|]; [|done]. by destruct (Hd y). }
    assert (Σ (g_rp m) new = 0) as Hn.
    { clear -E. exec_cases u E; rewrite ?sum_list_with_app; try (rewrite sum_notify by done); split_lists; try done. }
    destruct (exec_reps m _ _ _ _ E) as [[_ (k & Hk & [[He Hd]|(rx & w0 & y & H1 & H2 & _)])]|[(v & w0 & -> & H1 & H2 & _)|[(rx & x & -> & H1 & H2 & Hl)|[(rx & w0 & w' & e & H1 & H2 & Hl & H3)|(rx & v & e & H1 & H2 & _)]]]]; try congruence.
    + rewrite (HL k); [|done|intros y Hy; rewrite He in H; by eapply Hd; eauto].
      assert (g_rp m u = 0) as Hu; [|rewrite He in H; specialize (I _ _ H); lia].
      destruct u; cbn; try done. unfold isn. destruct (Nat.eqb_spec m0 m) as [->|]; [|done]. exfalso.
      cbn [exec] in E. rewrite He in H. rewrite H in E. injection E as <- <-. autorewrite with fr_reps in He. cbn in He.
      rewrite list_lookup_insert in He by (by eapply lookup_lt_Some). congruence.
    + destruct rx; [|congruence]. specialize (I m w0 H1).
      destruct (exec_evs _ _ _ _ E) as (k & Hk & Hs). rewrite (HL k); [|done|].
      2: { intros y Hy. rewrite Hl in Hk. destruct k as [|e' k]; [by apply elem_of_nil in Hy|].
           injection Hk as <- Hk. assert (length (k ++ log s) = length (log s)) as Hlen by (by rewrite <-Hk).
           rewrite app_length in Hlen. destruct k; [|cbn in Hlen; lia]. apply elem_of_list_singleton in Hy as <-.
           destruct H3 as [(? & ? & _ & [=] & _)|(? & ? & _ & [=] & _)]. }
      assert (g_rp m u = 0); [|lia].
      destruct H3 as [(? & ? & -> & _)|(? & ? & -> & _)]; done.
  - intros s Hr I Ho m w H. rewrite (msum_eq (g_rp m) s (free_chan s)) by (by autorewrite with fr_thr).
    destruct (free_closes m s) as [_ (k & Hk & [[He Hd]|(rx & w0 & y & H1 & H2 & _)])]; [|congruence].
    rewrite He in H. rewrite Hk, sum_list_with_app. rewrite sum_zero; [by eapply I|].
    intros e Hin. destruct (free_evs s) as (k' & Hk' & Hs). assert (k' = k) as -> by (rewrite Hk in Hk'; by apply app_inv_tail in Hk').
    destruct (Hs _ Hin) as (m' & y & -> & _). cbn. unfold isn. destruct (Nat.eqb_spec m' m) as [->|]; [|done]. exfalso. eapply Hd; eauto.
Qed.

(** An action that some call still has to perform. *)
Definition queued (u : micro) (s : state) : Prop := ∃ t p, thr s !! t = Some p ∧ u ∈ p.
Lemma queued_thr u s s' : thr s' = thr s → queued u s' → queued u s.
Proof. unfold queued. by intros ->. Qed.
Lemma queued_call u p s : queued u (call p s) → u ∈ p ∨ queued u s.
Proof.
  intros (t & q & Ht & Hq). cbn in Ht. apply lookup_app_Some in Ht as [Ht|[_ Ht]]; [right; by exists t, q|].
  destruct (t - length (thr s)); [|done]. cbn in Ht. injection Ht as <-. by left.
Qed.
Lemma queued_step x s t u rest s1 new : thr s !! t = Some (u :: rest) → thr s1 = thr s →
  queued x (set_thr (<[t := new ++ rest]> (thr s1)) s1) → x ∈ new ∨ queued x s.
Proof.
  intros Ht Hs (t' & q & Hq & Hx). cbn in Hq. rewrite Hs in Hq. apply list_lookup_insert_Some in Hq as [(-> & <- & _)|[_ Hq]].
  - apply elem_of_app in Hx as [Hx|Hx]; [by left|]. right. exists t', (u :: rest). split; [done|by right].
  - right. by exists t', q.
Qed.
Lemma queued_head s t u rest : thr s !! t = Some (u :: rest) → queued u s.
Proof. intros H. exists t, (u :: rest). split; [done|by left]. Qed.

(** Results come from handlers, and closed reply channels from dropped messages. *)
Definition InvVal (s : state) : Prop :=
  (∀ m v, queued (UReply m v) s → EvDone m v ∈ log s) ∧
  (∀ m rx v, reps s !! m = Some (RP rx (RVal v)) → EvDone m v ∈ log s) ∧
  (∀ m rx, reps s !! m = Some (RP rx RTaken) → ∃ v, EvDone m v ∈ log s) ∧
  (∀ m rx, reps s !! m = Some (RP rx RClosed) → ∃ y, EvDrop m y ∈ log s).
Lemma api_reply o s m v : queued (UReply m v) (api o s) → queued (UReply m v) s ∨ EvDone m v ∈ log (api o s).
Proof.
  destruct o; cbn [api]; repeat (dgoal; try by left); cbv zeta; split_drops; unfold add_addr; repeat dgoal;
    try (by left); try (intros [H|H]%queued_call; [|left; revert H; by apply queued_thr]).
  all: try (intros H; left; revert H; apply queued_thr; by repeat (progress (prj; autorewrite with fr_thr))).
  all: try (unfold rx_drop, tx_drop, payload_drop, amsg_drop in H; repeat match goal with H : context [if ?b then _ else _] |- _ => destruct b | H : context [match ?x with PU _ => _ | _ => _ end] |- _ => destruct x | H : context [match ?x with ToOne _ => _ | _ => _ end] |- _ => destruct x end; cbn in H; repeat first [rewrite elem_of_app in H|rewrite elem_of_cons in H|rewrite elem_of_nil in H]; by destruct_or?).
  right. cbn. rewrite elem_of_cons. unfold rx_drop in H. cbn in H. rewrite !elem_of_cons, elem_of_nil in H. destruct_or?; simplify_eq; by left.
Qed.
Lemma exec_no_reply u s s1 new m v : exec u s = (s1, new) → UReply m v ∉ new.
Proof.
  intros E. assert (Σ (g_rp m) new = 0) as Hn.
  { exec_cases u E; rewrite ?sum_list_with_app; try (rewrite sum_notify by done); split_lists; done. }
  intros Hin. pose proof (sum_elem (g_rp m) _ _ Hin) as H. cbn in H. unfold isn in H. rewrite Nat.eqb_refl in H. lia.
Qed.
Lemma reach_val s : reach s → InvVal s.
Proof.
  revert s. apply reach_inv; unfold InvVal.
  - intros c. split_and!; try done. intros m v (t & p & H & _). done.
  - intros s o Hr (I1 & I2 & I3 & I4).
    assert (∀ e, e ∈ log s → e ∈ log (api o s)) as HL by (intros e; apply logx_in, api_logx).
    split_and!.
    + intros m v Hq. destruct (api_reply _ _ _ _ Hq) as [?|?]; [|done]. by apply HL, I1.
    + intros m rx v H. destruct (api_reps m o s) as [He|(_ & _ & He & _)]; rewrite He in H; [|done]. by eapply HL, I2.
    + intros m rx H. destruct (api_reps m o s) as [He|(_ & _ & He & _)]; rewrite He in H; [|done].
      destruct (I3 _ _ H) as [v ?]. exists v. by apply HL.
    + intros m rx H. destruct (api_reps m o s) as [He|(_ & _ & He & _)]; rewrite He in H; [|done].
      destruct (I4 _ _ H) as [v ?]. exists v. by apply HL.
  - intros s t u rest s1 new Hr (I1 & I2 & I3 & I4) Ht E Hthr. prj.
    assert (∀ e, e ∈ log s → e ∈ log s1) as HL by (intros e; eapply logx_in, exec_logx; done).
    split.
    { intros m v Hq. destruct (queued_step _ _ _ _ _ _ _ Ht Hthr Hq) as [Hn|Hq']; [|by apply HL, I1].
      by apply (exec_no_reply _ _ _ _ _ _ E) in Hn. }
    split_and!; intros m rx; [intros v|..]; intros H; prj;
      destruct (exec_reps m _ _ _ _ E) as [[_ (k & Hk & [[He Hd]|(rx' & w0 & y & H1 & H2 & Hy & _)])]|[(v' & w0 & -> & H1 & H2 & _)|[(rx' & x & -> & H1 & H2 & Hl)|[(rx' & w0 & w' & e & H1 & H2 & Hl & H3)|(rx' & v' & e & H1 & H2 & _)]]]]; try congruence.
    + rewrite He in H. by eapply HL, I2.
    + rewrite H2 in H. injection H as <- ->. apply HL, I1. by eapply queued_head.
    + rewrite H2 in H. injection H as <- ->. by eapply HL, I2.
    + rewrite He in H. destruct (I3 _ _ H) as [v ?]. exists v. by apply HL.
    + rewrite H2 in H. injection H as <- ->. destruct (I3 _ _ H1) as [v ?]. exists v. by apply HL.
    + exists v'. by eapply HL, I2.
    + rewrite He in H. destruct (I4 _ _ H) as [v ?]. exists v. by apply HL.
    + exists y. rewrite Hk. apply elem_of_app. by left.
    + rewrite H2 in H. injection H as <- ->. destruct (I4 _ _ H1) as [v ?]. exists v. by apply HL.
  - intros s Hr (I1 & I2 & I3 & I4) Ho.
    assert (∀ e, e ∈ log s → e ∈ log (free_chan s)) as HL by (intros e; apply logx_in, free_logx).
    split. { intros m v Hq. apply HL, I1. revert Hq. apply queued_thr. by autorewrite with fr_thr. }
    split_and!; intros m rx; [intros v|..]; intros H;
      destruct (free_closes m s) as [_ (k & Hk & [[He Hd]|(rx' & w0 & y & H1 & H2 & Hy & _)])]; try congruence.
    + rewrite He in H. by eapply HL, I2.
    + rewrite He in H. destruct (I3 _ _ H) as [v ?]. exists v. by apply HL.
    + rewrite He in H. destruct (I4 _ _ H) as [v ?]. exists v. by apply HL.
    + exists y. rewrite Hk. apply elem_of_app. by left.
Qed.

(** ** Completed futures *)
Definition f_fin (x : sfut) : nat := match sf_st x with SFin => 1 | _ => 0 end.
Definition e_fin (f : nat) (e : ev) : nat :=
  match e with EvSend g o => match o with OPending => 0 | _ => isn f g end | _ => 0 end.

(** A completed future stays as it is. *)
Lemma api_fin o s f md l w : sfs s !! f = Some (SF SFin md l w) → ∃ l' w', sfs (api o s) !! f = Some (SF SFin md l' w').
Proof.
  intros Hf. pose proof (lookup_lt_Some _ _ _ Hf) as Hlt.
  destruct o; cbn [api]; repeat (dgoal; try by eauto); cbv zeta; unfold add_addr; repeat dgoal;
    repeat (progress (prj; autorewrite with fr_sfs)); try (by eauto); rewrite ?lookup_app_l by done; try (by eauto).
  all: match goal with |- context [<[?j := _]> _] => destruct (decide (j = f)) as [->|];
    [rewrite list_lookup_insert by done; simplify_eq; eauto|rewrite list_lookup_insert_ne by done; eauto] end.
  all: try (repeat case_match; simplify_eq; eauto).
Qed.
Lemma exec_fin u s s1 new t rest f md l w : reach s → thr s !! t = Some (u :: rest) → exec u s = (s1, new) →
  sfs s !! f = Some (SF SFin md l w) → sfs s1 !! f = Some (SF SFin md l w).
Proof.
  intros Hr Ht E Hf.
  assert (g_sf f u = 0) as Hu.
  { pose proof (reach_busyF s Hr f) as HB. rewrite (at_some _ _ _ _ Hf) in HB. cbn in HB.
    pose proof (msum_head (g_sf f) _ _ _ _ Ht). lia. }
  clear Hr Ht.
  exec_cases u E; repeat (progress (prj; autorewrite with fr_sfs)); try done; cbn in Hu.
  all: match goal with H : (if ?g =? ?f then 1 else 0) = 0 |- _ => destruct (Nat.eqb_spec g f); [done|] end.
  all: rewrite ?list_lookup_alter_ne, ?list_lookup_insert_ne by done; try done.
Qed.

(** Outcomes of send futures and detached receivers. *)
Definition InvOut (s : state) : Prop :=
  (∀ f o, EvSend f o ∈ log s → o ≠ OPending → ∃ md l w, sfs s !! f = Some (SF SFin md l w) ∧
     (∀ v, o = OValue v → ∃ m, md = MReturn m ∧ EvDone m v ∈ log s) ∧
     (o = OErrInterrupted → ∃ m y, md = MReturn m ∧ EvDrop m y ∈ log s)) ∧
  (∀ x o, EvReceiver x o ∈ log s → ∃ rc, rcvs s !! x = Some rc ∧
     (∀ v, o = OValue v → EvDone (rc_m rc) v ∈ log s) ∧
     (o = OErrInterrupted → ∃ y, EvDrop (rc_m rc) y ∈ log s)).
Lemma api_rcv_fwd o s x rc : rcvs s !! x = Some rc → ∃ rc', rcvs (api o s) !! x = Some rc' ∧ rc_m rc' = rc_m rc.
Proof.
  intros Hx. destruct o; cbn [api]; repeat (dgoal; try by eauto); cbv zeta; unfold add_addr; repeat dgoal;
    repeat (progress (prj; autorewrite with fr_rcvs)); eauto.
  all: match goal with |- context [<[?j := _]> _ !! ?x] => destruct (decide (j = x)) as [->|];
    [rewrite list_lookup_insert by (by eapply lookup_lt_Some); simplify_eq; eauto|rewrite list_lookup_insert_ne by done; eauto] end.
Qed.
Lemma exec_rcv_fwd u s s1 new x rc : exec u s = (s1, new) → rcvs s !! x = Some rc → ∃ rc', rcvs s1 !! x = Some rc' ∧ rc_m rc' = rc_m rc.
Proof.
  intros E Hx. exec_cases u E; repeat (progress (prj; autorewrite with fr_rcvs)); eauto.
  1: { rewrite lookup_app_l by (by eapply lookup_lt_Some). eauto. }
  all: match goal with |- context [<[?j := _]> _ !! ?x] => destruct (decide (j = x)) as [->|];
    [rewrite list_lookup_insert by (by eapply lookup_lt_Some); simplify_eq; eauto|rewrite list_lookup_insert_ne by done; eauto] end.
Qed.
Lemma app1_inv {A} (e : A) l k : e :: l = k ++ l → k = [e].
Proof. intros H. by apply (app_inv_tail l k [e]). Qed.
Lemma app2_inv {A} (e e' : A) l k : e :: e' :: l = k ++ l → k = [e; e'].
Proof. intros H. by apply (app_inv_tail l k [e; e']). Qed.
Lemma app0_inv {A} (l k : list A) : l = k ++ l → k = [].
Proof. intros H. by apply (app_inv_tail l k []). Qed.
Lemma reach_out s : reach s → InvOut s.
Proof.
  revert s. apply reach_inv; unfold InvOut.
  - intros c. split; by intros ? ? ?%elem_of_nil.
  - intros s o Hr [I1 I2].
    assert (∀ e, e ∈ log s → e ∈ log (api o s)) as HL by (intros e; apply logx_in, api_logx).
    assert (∀ e, e ∈ log (api o s) → e ∈ log s ∨ ev_api o e) as HB.
    { intros e. destruct (api_evs o s) as [->|(e' & -> & He)]; [by left|]. rewrite elem_of_cons. intros [->|?]; auto. }
    split.
    + intros f o' He Ho. apply HB in He as [He|He]; [|done]. destruct (I1 _ _ He Ho) as (md & l & w & Hf & H1 & H2).
      destruct (api_fin o s f md l w Hf) as (l' & w' & Hf'). exists md, l', w'. split; [done|]. split.
      * intros v Hv. destruct (H1 v Hv) as (m & ? & ?). exists m. auto.
      * intros Hv. destruct (H2 Hv) as (m & y & ? & ?). exists m, y. auto.
    + intros x o' He. apply HB in He as [He|He]; [|done]. destruct (I2 _ _ He) as (rc & Hx & H1 & H2).
      destruct (api_rcv_fwd o s x rc Hx) as (rc' & Hx' & Hm). exists rc'. rewrite Hm. split; [done|]. split.
      * intros v Hv. auto.
      * intros Hv. destruct (H2 Hv) as (y & ?). exists y. auto.
  - intros s t u rest s1 new Hr [I1 I2] Ht E Hthr. prj.
    assert (∀ e, e ∈ log s → e ∈ log s1) as HL by (intros e; eapply logx_in, exec_logx; done).
    destruct (exec_evs _ _ _ _ E) as (k & Hk & Hs).
    pose proof (reach_val s Hr) as (V1 & V2 & V3 & V4).
    split.
    + intros f o' He Ho. rewrite Hk in He. apply elem_of_app in He as [He|He].
      2: { destruct (I1 _ _ He Ho) as (md & l & w & Hf & H1 & H2).
           exists md, l, w. split; [by eapply exec_fin|]. split.
           * intros v Hv. destruct (H1 v Hv) as (m & ? & ?). exists m. auto.
           * intros Hv. destruct (H2 Hv) as (m & y & ? & ?). exists m, y. auto. }
      pose proof (Hs _ He) as Hse. 
      assert (g_sf f u = 1) as Hu.
      { destruct Hse as [[-> ?]|[[-> ?]|[[m ->]|[c [[->| ->] ?]]]]]; cbn; by rewrite Nat.eqb_refl. }
      destruct (busyF_at _ _ _ _ _ Hr Ht Hu) as ([st md l w] & Hf & Hb).
      cbn in Hb. subst st.
      assert (∀ x o, sfs (send_out f x o s) !! f = Some (SF x md l w)) as Hso.
      { intros x o. rewrite sfs_send_out, list_lookup_alter, Hf. done. }
      assert (∀ s' x o, sfs s' = sfs s → sfs (send_out f x o s') !! f = Some (SF x md l w)) as Hso'.
      { intros s' x o Hs'. rewrite sfs_send_out, list_lookup_alter, Hs', Hf. done. }
      destruct Hse as [[-> ->]|[[-> Hoo]|[[m ->]|[c [Hc Hoo]]]]].
      * injection E as <- <-. exists md, l, w. split; [apply Hso|]. by split; [intros v [=]|].
      * assert (∃ md', sfs s1 !! f = Some (SF SFin md' l w)) as [md' Hmd'].
        { cbn [exec] in E. rewrite Hf in E. unfold exec_send_ok, panic_send in E. cbn [sf_mode sf_live sf_wk] in E. destruct md as [m|[m|]|]; injection E as <- <-.
          - exfalso. apply app0_inv in Hk as ->. by apply elem_of_nil in He.
          - eexists. prj. by rewrite list_lookup_insert by (by eapply lookup_lt_Some).
          - eexists. prj. apply Hso.
          - eexists. apply Hso. }
        exists md', l, w. split; [done|]. destruct Hoo as [->|[->|[x ->]]]; by split; [intros v [=]|].
      * assert (md = MReturn m) as ->.
        { destruct (reach_K s Hr f m) as (K1 & _ & _ & K4 & _).
          pose proof (msum_head (g_um f m) _ _ _ _ Ht) as G1. pose proof (msum_head (g_rpl f) _ _ _ _ Ht) as G2.
          cbn in G1, G2. unfold isn in *. rewrite !Nat.eqb_refl in *.
          specialize (K4 ltac:(lia)). specialize (K1 ltac:(lia)). rewrite (at_some _ _ _ _ Hf) in K1. rewrite (at_some _ _ _ _ Hf) in K4.
          destruct md as [|[]|]; cbn in *; congruence. }
        cbn [exec] in E. rewrite Hf in E. unfold poll_reply in E. cbn [sf_wk] in E.
        destruct (reps s !! m) as [[rx [w0|v0| |]]|] eqn:Em; injection E as <- <-;
          (rewrite send_out_log in Hk; prj; apply app1_inv in Hk as ->; apply elem_of_list_singleton in He as [= ->]); try done;
          (eexists (MReturn m), l, w; split; [by apply Hso'|split]); try (by intros ? [=]); try done.
        -- intros v [= ->]. exists m. split; [done|]. eapply HL, V2, Em.
        -- intros _. destruct (V4 _ _ Em) as [y Hy]. exists m, y. split; [done|]. by apply HL.
      * destruct Hoo as [->| ->]; [done|]. exists md, l, w. split; [|by split; [intros v [=]|]].
        destruct Hc as [-> | ->]; cbn [exec] in E; rewrite Hf in E; unfold exec_send_cell1, exec_send_cellA, panic_send in E;
          repeat (dmatch E; cbv zeta in E); injection E as <- <-;
          repeat (progress (prj; autorewrite with fr_log in Hk)); try (apply Hso);
          exfalso; cbn in Hk; first [apply app0_inv in Hk as ->; by apply elem_of_nil in He|apply app1_inv in Hk as ->; by apply elem_of_list_singleton in He].
    + intros x o' He. rewrite Hk in He. apply elem_of_app in He as [He|He].
      2: { destruct (I2 _ _ He) as (rc & Hx & H1 & H2).
           destruct (exec_rcv_fwd _ _ _ _ x rc E Hx) as (rc' & Hx' & Hm). exists rc'. rewrite Hm. split; [done|]. split.
           * intros v Hv. auto.
           * intros Hv. destruct (H2 Hv) as (y & ?). exists y. auto. }
      pose proof (Hs _ He) as Hse. cbn in Hse. subst u. cbn [exec] in E.
      destruct (rcvs s !! x) as [rc|] eqn:Ex.
      2: { injection E as <- <-. apply app0_inv in Hk as ->. by apply elem_of_nil in He. }
      unfold poll_reply in E. destruct (reps s !! rc_m rc) as [[rx [w0|v0| |]]|] eqn:Em; injection E as <- <-;
        (cbn in Hk; apply app1_inv in Hk as ->; apply elem_of_list_singleton in He as [= ->]);
        (eexists; split; [prj; rewrite list_lookup_insert by (by eapply lookup_lt_Some); done|cbn [rc_m]; split]); try (by intros ? [=]); try done.
      -- intros v [= ->]. eapply HL, V2, Em.
      -- intros _. destruct (V4 _ _ Em) as [y Hy]. exists y. by apply HL.
  - intros s Hr [I1 I2] Ho.
    assert (∀ e, e ∈ log s → e ∈ log (free_chan s)) as HL by (intros e; apply logx_in, free_logx).
    assert (∀ e, e ∈ log (free_chan s) → e ∈ log s ∨ ∃ m y, e = EvDrop m y) as HB.
    { intros e. destruct (free_evs s) as (k & -> & Hk). rewrite elem_of_app. intros [He|He]; [|by left].
      destruct (Hk _ He) as (m & y & -> & _). right. by exists m, y. }
    autorewrite with fr_sfs fr_rcvs. split.
    + intros f o' He Hoo. apply HB in He as [He|(? & ? & [=])]. destruct (I1 _ _ He Hoo) as (md & l & w & Hf & H1 & H2).
      exists md, l, w. split; [done|]. split.
      * intros v Hv. destruct (H1 v Hv) as (m & ? & ?). exists m. auto.
      * intros Hv. destruct (H2 Hv) as (m & y & ? & ?). exists m, y. auto.
    + intros x o' He. apply HB in He as [He|(? & ? & [=])]. destruct (I2 _ _ He) as (rc & Hx & H1 & H2).
      exists rc. split; [done|]. split; [auto|]. intros Hv. destruct (H2 Hv) as (y & ?). exists y. auto.
Qed.

(** A send future completes at most once. *)
Lemma exec_fin1 f u s s1 new : exec u s = (s1, new) → Σ (e_fin f) (log s1) ≤ S (Σ (e_fin f) (log s)).
Proof.
  intros E. assert (∀ b g o, (if b : bool then 1 else 0) ≤ 1 ∧ e_fin f (EvSend g o) ≤ 1) as H1.
  { intros [] g o; cbn; unfold isn; repeat case_match; lia. }
  exec_cases u E; repeat (progress (prj; autorewrite with fr_log)); try (cbn [sum_list_with e_fin]; unfold isn; repeat case_match; lia);
    rewrite ?pop_broadcast_logm, ?rx_shutdown_log0 by done; try lia.
  all: try (cbn; rewrite ?pop_broadcast_logm by done; lia).
  all: destruct (pop_unicast_spec s) as (x & _ & _ & Hx); cbn [sum_list_with e_fin]; rewrite Hx; destruct x; cbn; lia.
Qed.
Lemma reach_fin1 s : reach s → ∀ f, Σ (e_fin f) (log s) ≤ 1.
Proof.
  revert s. apply (reach_inv (λ s, ∀ f, Σ (e_fin f) (log s) ≤ 1)).
  - intros c f. cbn. lia.
  - intros s o Hr I f. destruct (api_evs o s) as [->|(e & -> & He)]; [done|]. cbn. destruct e; cbn in *; try done; apply I.
  - intros s t u rest s1 new Hr I Ht E Hthr f. prj.
    destruct (decide (Σ (e_fin f) (log s) = 0)) as [H0|H0]; [pose proof (exec_fin1 f _ _ _ _ E); lia|].
    assert (Σ (e_fin f) (log s1) = Σ (e_fin f) (log s)) as ->; [|done].
    destruct (sum_pos (e_fin f) (log s)) as (e & He & Hpos); [lia|]. destruct e as [| | | | | | | | | |g o| | | | | |]; cbn in Hpos; try lia.
    assert (g = f ∧ o ≠ OPending) as [-> Ho].
    { unfold isn in Hpos. destruct o; try lia; case_eqb; (split; [done|done]) || lia. }
    destruct (proj1 (reach_out s Hr) _ _ He Ho) as (md & l & w & Hf & _).
    assert (g_sf f u = 0) as Hu.
    { pose proof (reach_busyF s Hr f) as HB. rewrite (at_some _ _ _ _ Hf) in HB. cbn in HB.
      pose proof (msum_head (g_sf f) _ _ _ _ Ht). lia. }
    destruct (exec_evs _ _ _ _ E) as (k & -> & Hs). rewrite sum_list_with_app, sum_zero; [done|].
    intros e' He'. destruct e' as [| | | | | | | | | |g o'| | | | | |]; try done. cbn. destruct (decide (g = f)) as [->|]; [exfalso|unfold isn; destruct (Nat.eqb_spec g f); [done|by destruct o']].
    pose proof (Hs _ He') as Hse. destruct Hse as [[-> ?]|[[-> ?]|[[m ->]|[c [[->| ->] ?]]]]]; cbn in Hu; by rewrite Nat.eqb_refl in Hu.
  - intros s Hr I Ho f. by rewrite free_log0.
Qed.
