(** The property statements, derived from the invariants (part B: fate of messages and
    replies). *)
From stdpp Require Import base numbers list list_numbers.
From Coq Require Import Lia.
From Verif Require Import Prio Heap State Model HeapProofs Frame Lib InvBusy InvCount Effects InvMsg InvMsg2
  InvHeap InvOne InvOne2 InvDisc InvWait InvWait2 InvFut InvCell WaitSpec InvWs InvBlk Mono InvSend InvErr
  Events Wake InvSmall InvRep InvPoll Spec Bridge FinalA FinalB FinalE Witness WitnessB ClaimsA.

(** *** C02 *)
Lemma c02 : ∀ s m, reachable s → 0 < times (accepted m) s →
  in_queue m s + in_flight m s + in_requeue m s + held m s + running m s
  + in_drop before_receive m s + in_drop by_program m s
  + times (dropped before_receive m) s + times (dropped by_program m) s + times (finished m) s = 1
  ∧ times (dropped before_accept m) s = 0.
Proof. intros. rch. by apply accounted. Qed.
Lemma c02_flight : ∀ s m, reachable s → 0 < in_flight m s →
  (∃ r h o k, hols s !! r = Some h ∧ h_st h = HRecvWait o ∧ ones s !! o = Some (ON true (OFull (CNewMsg k))) ∧ um_id k = m) ∨
  0 < todo (λ u, match u with UPollOne _ _ | UOneDrop _ => true | _ => false end) s.
Proof. intros. rch. by apply in_flight_owner. Qed.
Lemma c02_accepted : ∀ s f x, reachable s → happened (EvSend f (OReceiver x)) s →
  ∃ rc, rcvs s !! x = Some rc ∧ 0 < times (accepted (rc_m rc)) s.
Proof.
  intros s f x Hr He. rch. destruct (reach_out2 s Hr f) as [_ H]. destruct (H x He) as [_ [rc Hx]]. exists rc. split; [done|].
  destruct (reach_ok s Hr) as [_ O]. rewrite accepted_sum. eauto.
Qed.
Lemma c02_received : ∀ s m, reachable s → 0 < in_flight m s + times (received m) s → 0 < times (accepted m) s.
Proof.
  intros s m Hr H. rch. pose proof (received_accepted s m Hr). destruct (decide (0 < in_flight m s)) as [Hf|]; [|lia].
  destruct (decide (m < length (reps s))) as [Hm|Hm]; [destruct (somewhere s m Hr Hm); lia|].
  exfalso. pose proof (reach_B s Hr m) as HB.
  assert (in_flight m s = Σ (oone (is m)) (ones s)) as E by (apply cnt_sum; b2n).
  rewrite <-accepted_sum in HB. assert (0 < times (accepted m) s) as Ha by lia. apply (accepted_lt s m Hr) in Ha. lia.
Qed.
Lemma c02_reasons : ∀ s m y, reachable s → happened (EvDrop m y) s →
  match y with
  | DCleared => rxc s = 0
  | DFreed => (∀ a x, addrs s !! a = Some x → ad_live x = false) ∧ (∀ r h, hols s !! r = Some h → h_st h = HGone)
  | DUserMsg => times (received m) s = 1 ∧ times (handled m) s = 0
  | DUserRun => times (handled m) s = 1 ∧ times (finished m) s = 0
  | DSendDropped | DDisconnected | DClosed => times (accepted m) s = 0
  | DWindow => times (received m) s = 0
  end.
Proof.
  intros s m y Hr He. rch. pose proof (reach_A s Hr m) as HA. pose proof (reach_B s Hr m) as HB. pose proof (reach_C s Hr m) as HC. pose proof (reach_D s Hr m) as HD.
  assert (∀ d : why → nat, d y = 1 → Σ (e_drop d m) (log s) > 0) as Hd.
  { intros d E. pose proof (sum_elem (e_drop d m) _ _ He) as H. cbn in H. unfold isn in H. rewrite Nat.eqb_refl, E in H. lia. }
  destruct (once s m Hr) as (O1 & O2 & O3).
  assert (times (received m) s = Σ (e_recv m) (log s)) as Er by (apply cnt_sum; b2n).
  assert (times (handled m) s = Σ (e_handle m) (log s)) as Eh by (apply cnt_sum; b2n).
  assert (times (finished m) s = Σ (e_done m) (log s)) as Ed by (apply cnt_sum; b2n).
  rewrite (split_ev (e_pre m) (e_acc m) (e_drop d_pre m)) in HA by (intros []; cbn; lia).
  rewrite (split_ev (e_mid m) (e_recv m) (e_drop d_mid m)) in HB by (intros []; cbn; repeat case_match; lia).
  rewrite (split_ev (e_msg m) (e_handle m) (e_drop d_msg m)) in HC by (intros []; cbn; repeat case_match; lia).
  rewrite (split_ev (e_run m) (e_done m) (e_drop d_run m)) in HD by (intros []; cbn; repeat case_match; lia).
  pose proof (lt1_le m (length (reps s))) as Hle. rewrite accepted_sum.
  destruct y; try (specialize (Hd d_pre eq_refl); lia).
  - by eapply reach_clr.
  - specialize (Hd d_mid eq_refl). lia.
  - pose proof (reach_freed s Hr m He) as Hn. unfold nown in Hn. split.
    + intros a x Hx. destruct (ad_live x) eqn:E; [|done]. pose proof (sum_lookup a_any _ _ _ Hx) as H. unfold a_any in H at 1. rewrite E in H. lia.
    + intros r h Hx. pose proof (sum_lookup h_any _ _ _ Hx) as H. unfold h_any in H at 1. destruct (h_st h); try lia; done.
  - specialize (Hd d_msg eq_refl). lia.
  - specialize (Hd d_run eq_refl). lia.
Qed.

(** *** C03 *)
Lemma spent_later s s' m : reach s → later s s' → 0 < ndrop d_pre m s →
  times (accepted m) s' = 0 ∧ times (received m) s' = 0 ∧ times (handled m) s' = 0.
Proof.
  intros Hr Hl Hn. apply spent; [by eapply later_reach|]. pose proof (ndrop_later d_pre m s s' Hr Hl). lia.
Qed.
Lemma c03_failed : ∀ s f x m s', reachable s → happened (EvSend f OErrDisconnected) s →
  sfs s !! f = Some x → message_of x = Some m → later s s' →
  times (accepted m) s' = 0 ∧ times (received m) s' = 0 ∧ times (handled m) s' = 0.
Proof. intros s f x m s' Hr. intros. rch. eapply spent_later; eauto. by eapply failed_spent. Qed.
Lemma c03_cancelled : ∀ s f x m s', reachable s → sfs s !! f = Some x → message_of x = Some m → sf_live x = false →
  cancelling s = 0 → times (accepted m) s = 0 → later s s' →
  times (accepted m) s' = 0 ∧ times (received m) s' = 0 ∧ times (handled m) s' = 0.
Proof. intros s f x m s' Hr. intros. rch. eapply spent_later; eauto. by eapply cancelled_spent. Qed.

(** *** C28 *)
Lemma c28_value : ∀ s f v, reachable s → happened (EvSend f (OValue v)) s →
  ∃ x m, sfs s !! f = Some x ∧ sf_mode x = MReturn m ∧ happened (EvDone m v) s.
Proof.
  intros s f v Hr He. rch. destruct (reach_out s Hr) as [O _]. destruct (O f _ He ltac:(done)) as (md & l & w & Hf & Hv & _).
  destruct (Hv v eq_refl) as (m & -> & Hd). by eexists _, m.
Qed.
Lemma c28_receiver : ∀ s x v, reachable s → happened (EvReceiver x (OValue v)) s →
  ∃ rc, rcvs s !! x = Some rc ∧ happened (EvDone (rc_m rc) v) s.
Proof.
  intros s f v Hr He. rch. destruct (reach_out s Hr) as [_ O]. destruct (O f _ He) as (rc & Hf & Hv & _). exists rc. split; [done|]. by apply Hv.
Qed.
Lemma c28_once : ∀ s, reachable s → (∀ f, times (completes f) s ≤ 1) ∧ (∀ x, times (receiver_completes x) s ≤ 1) ∧
  (∀ m v v', happened (EvDone m v) s → happened (EvDone m v') s → v = v').
Proof.
  intros s Hr. rch. split_and!.
  - intros f. unfold times. rewrite (cnt_sum (e_fin f)); [by apply reach_fin1|]. intros []; cbn; try done. unfold isn. destruct o, (_ =? _); done.
  - intros x. unfold times. rewrite (cnt_sum (e_xfin x)); [|intros []; cbn; try done; unfold isn; destruct o, (_ =? _); done].
    rewrite (reach_xfin s Hr x). apply at_bound. intros []. unfold xfin. repeat case_match; lia.
  - intros m v v' H1 H2. pose proof (end_same s m _ _ Hr H1 H2 (e_end_done m v) (e_end_done m v')). congruence.
Qed.
Lemma c28_distinct : ∀ s, reachable s →
  (∀ f g x y m, sfs s !! f = Some x → sfs s !! g = Some y → message_of x = Some m → message_of y = Some m → f = g) ∧
  (∀ f g x y, rcvs s !! f = Some x → rcvs s !! g = Some y → rc_m x = rc_m y → f = g) ∧
  (∀ f g x y m, sfs s !! f = Some x → rcvs s !! g = Some y → message_of x = Some m → rc_m y ≠ m).
Proof.
  intros s Hr. rch. split_and!.
  - intros f g x y m Hf Hg [Hx _]%message_of_is [Hy _]%message_of_is. by eapply owner_unique.
  - intros. by eapply rcv_unique.
  - intros f g x y m Hf Hg [Hx _]%message_of_is. by eapply owner_rcv.
Qed.
Lemma message_fm s f m : at_ fm (sfs s) f = S m → ∃ x, sfs s !! f = Some x ∧ message_of x = Some m.
Proof.
  intros H. destruct (at_pos fm (sfs s) f) as (x & Hx & _); [lia|]. rewrite (at_some _ _ _ _ Hx) in H. exists x. split; [done|].
  unfold fm, message_of in *. destruct (sf_mode x) as [|[]|]; congruence.
Qed.
Lemma c28_follows : ∀ s s' f x m, reachable s → sfs s !! f = Some x → message_of x = Some m → later s s' →
  (∃ x', sfs s' !! f = Some x' ∧ message_of x' = Some m) ∨
  (∃ y rc, happened (EvSend f (OReceiver y)) s' ∧ rcvs s' !! y = Some rc ∧ rc_m rc = m).
Proof.
  intros s s' f x m Hr Hf [_ Hm]%message_of_is Hl. rch. destruct (carries_later f m s s' Hr Hl) as [H|H].
  - left. by rewrite (at_some _ _ _ _ Hf).
  - left. by apply message_fm.
  - right. done.
Qed.

(** *** C29 *)
Lemma c29_send : ∀ s f x m, reachable s → quiet s → sfs s !! f = Some x → pollable x → message_of x = Some m →
  (∀ v, sf_mode x = MReturn m → happened (EvDone m v) s → resolves_to s f (OValue v)) ∧
  (∀ y, sf_mode x = MReturn m → happened (EvDrop m y) s → 0 < times (accepted m) s → resolves_to s f OErrInterrupted) ∧
  (∀ y, happened (EvDrop m y) s → times (accepted m) s = 0 → resolves_to s f OErrDisconnected) ∧
  (sf_mode x = MDetached (Some m) → 0 < times (accepted m) s → resolves_to s f (OReceiver (length (rcvs s)))).
Proof.
  intros s f x m Hr Hq Hf Hp Hm. rch. split_and!; intros.
  - by eapply resolve_value.
  - by eapply resolve_interrupted.
  - by eapply resolve_disconnected.
  - by eapply resolve_detached.
Qed.
Lemma c29_receiver : ∀ s x rc, reachable s → quiet s → rcvs s !! x = Some rc → rc_live rc = true → rc_st rc = XIdle →
  (∀ v, happened (EvDone (rc_m rc) v) s → receiver_resolves_to s x (OValue v)) ∧
  (∀ y, happened (EvDrop (rc_m rc) y) s → receiver_resolves_to s x OErrInterrupted).
Proof. intros s x rc Hr. intros. rch. split; intros; [by eapply resolve_rcv_value|by eapply resolve_rcv_interrupted]. Qed.
Lemma c29_only : ∀ s, reachable s →
  (∀ f, happened (EvSend f OErrInterrupted) s → ∃ x m y, sfs s !! f = Some x ∧ sf_mode x = MReturn m ∧ happened (EvDrop m y) s) ∧
  (∀ x, happened (EvReceiver x OErrInterrupted) s → ∃ rc y, rcvs s !! x = Some rc ∧ happened (EvDrop (rc_m rc) y) s).
Proof.
  intros s Hr. rch. destruct (reach_out s Hr) as [O1 O2]. split.
  - intros f He. destruct (O1 f _ He ltac:(done)) as (md & l & w & Hf & _ & Hi). destruct (Hi eq_refl) as (m & y & -> & Hd). by eexists _, m, y.
  - intros x He. destruct (O2 x _ He) as (rc & Hx & _ & Hi). destruct (Hi eq_refl) as (y & Hd). by exists rc, y.
Qed.

(** *** C30 *)
Lemma no_panic_ev s : reach s → EvPanic ∉ log s ∧ (∀ f, EvSend f OPanic ∉ log s) ∧ (∀ x, EvReceiver x OPanic ∉ log s).
Proof.
  intros Hr. pose proof (reach_pan s Hr) as HP. split_and!; intros; intros He; pose proof (sum_elem e_pan _ _ He) as H; cbn in H; lia.
Qed.
Lemma c30 : ∀ s f x o, reachable s → happened (EvSend f o) s → sfs s !! f = Some x →
  match sf_mode x with
  | MReturn _ => o = OPending ∨ (∃ v, o = OValue v) ∨ o = OErrDisconnected ∨ o = OErrInterrupted
  | MDetached _ => o = OPending ∨ (∃ y, o = OReceiver y) ∨ o = OErrDisconnected
  | MBroadcast => o = OPending ∨ o = OOk ∨ o = OErrDisconnected
  end.
Proof.
  intros s f x o Hr He Hf. rch. destruct (reach_out2 s Hr f) as [H1 H2]. destruct (reach_out s Hr) as [O _].
  destruct (no_panic_ev s Hr) as (_ & P & _).
  destruct o; try by (destruct (sf_mode x); eauto).
  - destruct (H1 He) as (l & w & H). simplify_eq. cbn. eauto.
  - destruct (O f _ He ltac:(done)) as (md & l & w & H & H4 & _). simplify_eq. destruct (H4 v eq_refl) as (m & -> & _). cbn. eauto.
  - destruct (H2 _ He) as [(l & w & H) _]. simplify_eq. cbn. eauto.
  - destruct (O f _ He ltac:(done)) as (md & l & w & H & _ & H4). simplify_eq. destruct (H4 eq_refl) as (m & y & -> & _). cbn. eauto.
  - by destruct (P f).
Qed.

(** *** C41 *)
Lemma c41 : ∀ s, reachable s → ¬ happened EvPanic s ∧ (∀ f, ¬ happened (EvSend f OPanic) s) ∧ (∀ x, ¬ happened (EvReceiver x OPanic) s).
Proof. intros s Hr. rch. by apply no_panic_ev. Qed.

(** *** C50 *)
Lemma c50 : ∀ s, reachable s → abandoned s →
  (∀ f x, sfs s !! f = Some x → pollable x → ∃ o, o ≠ OPending ∧ o ≠ OPanic ∧ resolves_to s f o) ∧
  (∀ x rc, rcvs s !! x = Some rc → rc_live rc = true → rc_st rc = XIdle → ∃ o, o ≠ OPending ∧ o ≠ OPanic ∧ receiver_resolves_to s x o) ∧
  (∀ m, m < length (reps s) → over m s).
Proof.
  intros s Hr Ha. destruct (abandoned_empty s Hr Ha) as (E1 & E2 & E3 & E4). rch. destruct Ha as (Hq & A1 & A2 & A3).
  assert (∀ m, m < length (reps s) → over m s) as HO.
  { intros m Hm. eapply drained_over; try done. intros f x p k Hf Hl _. by eapply A3. }
  split_and!; [| |done].
  - intros f x Hf Hp. destruct (message_of x) as [m|] eqn:Hm.
    + eapply ended_resolves; try done. apply HO. by eapply owner_exists.
    + unfold message_of in Hm. destruct (sf_mode x) as [|[]|] eqn:Hmd; try done.
      * exfalso. destruct (reach_K s Hr f 0) as (_ & _ & _ & _ & K). rewrite !(at_some _ _ _ _ Hf) in K. unfold f_any, fk in K.
        rewrite Hmd in K. destruct Hp as (_ & P1 & P2). destruct (sf_st x); try done; by apply K; [lia|].
      * destruct (bcast_resolves s f x Hr Hq E3 Hf Hp Hmd) as (o & Ho & Hres); [intros; eapply A3; [done|apply Hp]|].
        exists o. destruct Ho as [-> | ->]; done.
  - intros x rc Hx Hl Hs. eapply rcv_resolves; try done. apply HO. by eapply rcv_exists.
Qed.
