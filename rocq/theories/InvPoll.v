(** Futures and receivers that can still be polled: they are alive, they own their reply
    channel, and its value has not been taken.  No internal panic can happen. *)
From stdpp Require Import base numbers list list_numbers.
From Coq Require Import Lia.
From Verif Require Import Prio Heap State Model HeapProofs Frame Lib InvBusy InvCount Effects InvMsg InvOne InvDisc InvFut InvCell WaitSpec InvWs InvBlk Mono InvSend InvErr Events Wake InvSmall InvRep.

(** ** A dropped send future is finished *)
Definition f_dead (x : sfut) : nat := if sf_live x then 0 else match sf_st x with SFin => 0 | _ => 1 end.
Lemma reach_dead s : reach s → Σ f_dead (sfs s) = 0.
Proof.
  revert s. apply (reach_inv (λ s, Σ f_dead (sfs s) = 0)).
  - done.
  - intros s o Hr I.
    destruct o; cbn [api]; repeat (dgoal; try done); cbv zeta; unfold add_addr; repeat dgoal;
      repeat (progress (prj; autorewrite with fr_sfs)); sums; cbn in *; try lia.
  - intros s t u rest s1 new Hr I Ht E Hthr. prj.
    assert (∀ f, g_sf f u = 1 → at_ f_dead (sfs s) f = 0) as Hd.
    { intros f _. pose proof (at_le_sum f_dead (sfs s) f). lia. }
    pose proof (busyF_at s t u rest) as Hb.
    exec_cases u E; repeat (progress (prj; autorewrite with fr_sfs)); try done; sums; cbn in *; ats.
    all: try (destruct (Hb f Hr Ht ltac:(cbn; by rewrite Nat.eqb_refl)) as (sf & Hsf & Hst); pose proof (sum_lookup f_dead _ _ _ Hsf);
      ats; unfold f_dead in *; destruct sf as [? ? [] ?]; cbn in *; subst; cbn in *; lia).
    all: try (destruct (Hb f Hr Ht ltac:(cbn; by rewrite Nat.eqb_refl)) as (sf & Hsf & Hst); rewrite Hsf in Em; injection Em as <-;
      pose proof (sum_lookup f_dead _ _ _ Hsf); unfold f_dead in *; destruct sf as [? ? [] ?]; cbn in *; subst; cbn in *; lia).
  - intros s Hr I Ho. by autorewrite with fr_sfs.
Qed.

(** ** A detached receiver that is being polled is polled by exactly one call *)
Definition g_xp (x : nat) (u : micro) : nat := match u with URcvPoll y => isn x y | _ => 0 end.
Definition xbusy (r : rcv) : nat := match rc_st r with XBusy => 1 | _ => 0 end.
Lemma reach_busyX s : reach s → ∀ x, msum (g_xp x) s = at_ xbusy (rcvs s) x.
Proof.
  revert s. apply (reach_inv (λ s, ∀ x, msum (g_xp x) s = at_ xbusy (rcvs s) x)).
  - done.
  - intros s o Hr I x. specialize (I x).
    do_api o ltac:(autorewrite with fr_rcvs).
    all: unfold isn in *; fin.
  - intros s t u rest s1 new Hr I Ht E Hthr x. pose proof (I x) as Ix.
    pose proof (msum_step (g_xp x) s t u rest new s1 Ht Hthr) as HM.
    revert HM. generalize (msum (g_xp x) (set_thr (<[t:=new ++ rest]> (thr s1)) s1)). intros n HM.
    pose proof (msum_head (g_xp x) s t u rest Ht) as HH.
    assert (at_ xbusy (rcvs s) x ≤ 1) by (apply at_bound; intros r; unfold xbusy; case_match; lia).
    prj. do_exec u E HM ltac:(autorewrite with fr_rcvs); unfold isn in *; fin.
    all: try (rewrite at_ge in Ix by lia; lia).
    all: try (destruct r1; cbn in *; lia).
  - intros s Hr I Ho x. rewrite (msum_eq _ s (free_chan s)) by (by autorewrite with fr_thr). autorewrite with fr_rcvs. apply I.
Qed.

(** ** Reply channels: what each action can do to the two flags of interest *)
Definition r_rx (x : rep) : nat := if rp_rx x then 1 else 0.
Definition r_tk (x : rep) : nat := match rp_st x with RTaken => 1 | _ => 0 end.
Lemma exec_rflags m u s s1 new : exec u s = (s1, new) →
  (at_ r_rx (reps s1) m = at_ r_rx (reps s) m ∨ (u = URepDrop m ∧ at_ r_rx (reps s1) m = 0)) ∧
  (at_ r_tk (reps s1) m = at_ r_tk (reps s) m ∨
   (at_ r_tk (reps s1) m = 1 ∧ ((∃ f, u = UReplyPoll f m ∧ log s1 ≠ EvSend f OPending :: log s) ∨ (∃ x rc, u = URcvPoll x ∧ rcvs s !! x = Some rc ∧ rc_m rc = m ∧ log s1 ≠ EvReceiver x OPending :: log s)))).
Proof.
  intros E. unfold at_.
  destruct (exec_reps m _ _ _ _ E) as [[_ (k & Hk & [[-> Hd]|(rx' & w0 & y & -> & -> & Hy & _)])]|[(v' & w0 & -> & -> & -> & _)|[(rx' & x & -> & -> & -> & Hl)|[(rx' & w0 & w' & e & -> & -> & Hl & H3)|(rx' & v' & e & -> & -> & Hl & [(f & -> & ->)|(x & rc & -> & -> & Hx)])]]]];
    cbn; eauto.
  - split; [by left|]. right. split; [done|]. left. exists f. split; [done|]. rewrite Hl. intros [=].
  - split; [by left|]. right. split; [done|]. right. exists x, rc. destruct Hx. split_and!; try done. rewrite Hl. intros [=].
Qed.
Lemma free_rflags m s : at_ r_rx (reps (free_chan s)) m = at_ r_rx (reps s) m ∧ at_ r_tk (reps (free_chan s)) m = at_ r_tk (reps s) m.
Proof.
  unfold at_. destruct (free_closes m s) as [_ (k & Hk & [[-> Hd]|(rx' & w0 & y & -> & -> & Hy & _)])]; done.
Qed.

(** ** The receiving half of a reply channel lives exactly as long as its owner *)
Definition f_il (m : nat) (x : sfut) : nat := if sf_live x then f_is m x else 0.
Definition x_il (m : nat) (x : rcv) : nat := if rc_live x then x_is m x else 0.
Definition g_rd (m : nat) (u : micro) : nat := match u with URepDrop k => isn m k | _ => 0 end.
Definition InvLive (s : state) : Prop := ∀ m,
  Σ (f_il m) (sfs s) + Σ (x_il m) (rcvs s) + msum (g_rd m) s = at_ r_rx (reps s) m.
Lemma reach_live s : reach s → InvLive s.
Proof.
  revert s. apply reach_inv; unfold InvLive.
  - done.
  - intros s o Hr I m. specialize (I m).
    assert (at_ r_rx (reps s) (length (reps s)) = 0) as H0 by (by apply at_ge).
    do_api o ltac:(autorewrite with fr_rcvs fr_sfs fr_reps).
    all: unfold f_il, x_il, f_is, x_is, isn in *; fin.
  - intros s t u rest s1 new Hr I Ht E Hthr m. pose proof (I m) as Im.
    pose proof (msum_step (g_rd m) s t u rest new s1 Ht Hthr) as HM.
    pose proof (exec_rflags m _ _ _ _ E) as [HR _].
    pose proof (msum_head (g_rd m) s t u rest Ht) as HH.
    assert (at_ r_rx (reps s) m ≤ 1) by (apply at_bound; intros r; unfold r_rx; case_match; lia).
    revert HM. generalize (msum (g_rd m) (set_thr (<[t:=new ++ rest]> (thr s1)) s1)). intros n HM.
    assert (Σ (f_il m) (sfs s1) + Σ (x_il m) (rcvs s1) = Σ (f_il m) (sfs s) + Σ (x_il m) (rcvs s)) as Hown.
    { clear HM HR HH.
      assert (∀ f sf, g_sf f u = 1 → sfs s !! f = Some sf → sf_live sf = true) as Hlv.
      { intros f sf Hu Hf. destruct (busyF_at s t u rest f Hr Ht Hu) as (sf' & Hf' & Hst). simplify_eq.
        pose proof (sum_lookup f_dead _ _ _ Hf) as Hd. rewrite (reach_dead s Hr) in Hd. unfold f_dead in Hd. rewrite Hst in Hd.
        destruct (sf_live sf); [done|lia]. }
      clear Ht Hthr. exec_cases u E; repeat (progress (prj; autorewrite with fr_sfs fr_rcvs)); sums; cbn -[Nat.eqb] in *; ats; unfold x_il, x_is, f_il, f_is in *; cbn in *; try lia.
      all: try (unfold at_ in *; repeat case_match; cbn in *; simplify_eq; lia).
      all: match goal with H : sfs _ !! ?f = Some ?sf, H2 : sf_mode ?sf = _ |- _ =>
        specialize (Hlv f sf ltac:(by rewrite Nat.eqb_refl) H); rewrite Hlv, H2 in *; cbn in *; lia end. }
    prj. rewrite Hown. clear Hown Hthr Ht.
    assert (g_rd m u = Σ (g_rd m) new ∨ (u = URepDrop m ∧ new = [])) as Hg.
    { clear HM HR HH. exec_cases u E; unfold rx_drop, payload_drop, amsg_drop, tx_drop; repeat case_match; cbn; try (by left); rewrite ?sum_notify by done; try (by left).
      all: unfold isn; case_eqb; subst; try (by left); by right. }
    destruct Hg as [Hg|[-> ->]].
    + destruct HR as [HR|[-> HR]]; [lia|]. cbn [exec] in E. assert (new = []) as -> by (by repeat case_match; simplify_eq).
      cbn in Hg. unfold isn in Hg. by rewrite Nat.eqb_refl in Hg.
    + cbn in HM, HH. unfold isn in HM, HH. rewrite Nat.eqb_refl in HM, HH. destruct HR as [HR|[_ HR]]; [|lia].
      cbn [exec] in E. revert HR. unfold at_ in *. destruct (reps s !! m) as [[rx x]|] eqn:Em; [|lia].
      injection E as <-. prj. rewrite list_lookup_insert by (by eapply lookup_lt_Some). cbn in *. lia.
  - intros s Hr I Ho m. rewrite (msum_eq _ s (free_chan s)) by (by autorewrite with fr_thr). autorewrite with fr_sfs fr_rcvs.
    by rewrite (proj1 (free_rflags m s)).
Qed.

(** ** The value of a reply is taken only by its owner, which has then completed *)
Definition f_op (m : nat) (x : sfut) : nat := match sf_st x with SFin => 0 | _ => f_is m x end.
Definition x_op (m : nat) (x : rcv) : nat := match rc_st x with XFin => 0 | _ => x_is m x end.
Definition InvTk (s : state) : Prop := ∀ m,
  at_ r_tk (reps s) m + Σ (f_op m) (sfs s) + Σ (x_op m) (rcvs s) ≤ 1.
Lemma reach_tk s : reach s → InvTk s.
Proof.
  revert s. apply reach_inv; unfold InvTk.
  - intros c m. rewrite at_ge by (cbn; lia). cbn. lia.
  - intros s o Hr I m. specialize (I m).
    assert (∀ m, length (reps s) ≤ m → Σ (f_op m) (sfs s) + Σ (x_op m) (rcvs s) = 0) as H0.
    { intros k Hk. pose proof (reach_uniq s Hr k) as HU. unfold lt1 in HU. destruct (Nat.ltb_spec k (length (reps s))); [lia|].
      pose proof (sum_le (f_op k) (f_is k) (sfs s) ltac:(intros []; unfold f_op; cbn; case_match; lia)).
      pose proof (sum_le (x_op k) (x_is k) (rcvs s) ltac:(intros []; unfold x_op; cbn; case_match; lia)). lia. }
    specialize (H0 (length (reps s)) ltac:(lia)).
    assert (at_ r_tk (reps s) (length (reps s)) = 0) as H1 by (by apply at_ge).
    do_api o ltac:(autorewrite with fr_rcvs fr_sfs fr_reps).
    all: unfold f_op, x_op, f_is, x_is, isn in *; fin.
  - intros s t u rest s1 new Hr I Ht E Hthr m. pose proof (I m) as Im. prj.
    pose proof (exec_rflags m _ _ _ _ E) as [_ HR].
    assert (∀ f sf, g_sf f u = 1 → sfs s !! f = Some sf → sf_st sf = SBusy) as Hbz.
    { intros f sf Hu Hf. destruct (busyF_at s t u rest f Hr Ht Hu) as (sf' & Hf' & Hst). by simplify_eq. }
    assert (∀ x rc, u = URcvPoll x → rcvs s !! x = Some rc → rc_st rc = XBusy) as HbX.
    { intros x rc -> Hx. pose proof (reach_busyX s Hr x) as HB. pose proof (msum_head (g_xp x) _ _ _ _ Ht) as HH.
      cbn in HH. unfold isn in HH. rewrite Nat.eqb_refl in HH. rewrite (at_some _ _ _ _ Hx) in HB. unfold xbusy in HB. destruct (rc_st rc); try lia; done. }
    destruct HR as [->|(-> & [(f & -> & Hl)|(x & rc & -> & Hx & Hm & Hl)])].
    + assert (Σ (f_op m) (sfs s1) + Σ (x_op m) (rcvs s1) ≤ Σ (f_op m) (sfs s) + Σ (x_op m) (rcvs s)) as Hown; [|lia].
      clear I Im Ht Hthr. exec_cases u E; repeat (progress (prj; autorewrite with fr_sfs fr_rcvs)); sums; cbn -[Nat.eqb] in *; ats; unfold x_op, x_is, f_op, f_is in *; cbn in *; try lia.
      all: try (match goal with H : sfs _ !! ?f = Some ?sf |- _ =>
        specialize (Hbz f sf ltac:(by rewrite Nat.eqb_refl) H); rewrite Hbz in *; try (match goal with H2 : sf_mode sf = _ |- _ => rewrite H2 in * end); cbn in *; try lia end).
      all: try (match goal with H : rcvs _ !! ?x = Some ?rc |- _ =>
        specialize (HbX x rc eq_refl H); rewrite HbX in *; repeat case_match; cbn in *; lia end).
      all: try (unfold at_ in *; repeat case_match; cbn in *; simplify_eq; lia).
    + destruct (busyF_at s t _ rest f Hr Ht ltac:(cbn; by rewrite Nat.eqb_refl)) as (sf & Hf & Hst).
      assert (f_op m sf = 1) as H1.
      { destruct (reach_K s Hr f m) as (K & _). pose proof (msum_head (g_um f m) _ _ _ _ Ht) as HH. cbn in HH. unfold isn in HH.
        rewrite !Nat.eqb_refl in HH. specialize (K ltac:(lia)). rewrite (at_some _ _ _ _ Hf) in K. unfold f_op, f_is. rewrite Hst.
        unfold fm in K. destruct (sf_mode sf) as [|[]|]; try done; injection K as ->; unfold isn; by rewrite Nat.eqb_refl. }
      cbn [exec] in E. rewrite Hf in E. destruct (poll_reply m (sf_wk sf) s) as [s2 o] eqn:Ep. injection E as <- <-.
      assert (rcvs s2 = rcvs s ∧ sfs s2 = sfs s ∧ log s2 = log s) as (Ex & Es & El).
      { pose proof (f_equal fst Ep) as Ep'. cbn in Ep'. subst s2. by autorewrite with fr_rcvs fr_sfs fr_log. }
      rewrite send_out_log, El in Hl. autorewrite with fr_sfs fr_rcvs. rewrite Ex, Es. sums. ats. cbn in HS.
      assert (f_op m (SF (match o with OPending => SDone | _ => SFin end) (sf_mode sf) (sf_live sf) (sf_wk sf)) = 0) as H2 by (by destruct o).
      lia.
    + assert (x_op m rc = 1) as H1.
      { unfold x_op, x_is. rewrite (HbX x rc eq_refl Hx), Hm. unfold isn. by rewrite Nat.eqb_refl. }
      cbn [exec] in E. rewrite Hx in E. destruct (poll_reply (rc_m rc) (rc_wk rc) s) as [s2 o] eqn:Ep. injection E as <- <-.
      assert (rcvs s2 = rcvs s ∧ sfs s2 = sfs s ∧ log s2 = log s) as (Ex & Es & El).
      { pose proof (f_equal fst Ep) as Ep'. cbn in Ep'. subst s2. by autorewrite with fr_rcvs fr_sfs fr_log. }
      prj. cbn [log] in Hl. rewrite Ex, Es. unfold emit in Hl. cbn in Hl. rewrite El in Hl. sums. cbn in HS.
      assert (x_op m (RC (rc_m rc) (match o with OPending => XIdle | _ => XFin end) (rc_live rc) (rc_wk rc)) = 0) as H2 by (by destruct o).
      lia.
  - intros s Hr I Ho m. autorewrite with fr_sfs fr_rcvs. rewrite (proj2 (free_rflags m s)). apply I.
Qed.

(** ** No internal panic *)
Definition e_pan (e : ev) : nat := match e with EvPanic | EvSend _ OPanic | EvReceiver _ OPanic => 1 | _ => 0 end.
Lemma pop_unicast_some s m : heap_peek (uq s) = Some m → snd (pop_unicast s) ≠ None.
Proof.
  intros H. unfold pop_unicast. destruct (heap_peek_pop um_prio _ _ H) as [h ->]. cbv zeta. repeat case_match; done.
Qed.
Lemma pop_broadcast_some b s m : heap_peek (bq_get s b) = Some m → snd (pop_broadcast b s) ≠ None.
Proof.
  intros H. unfold pop_broadcast. destruct (heap_peek_pop bm_prio _ _ H) as [h ->]. cbv zeta. repeat case_match; done.
Qed.
Lemma poll_reply_ok m w s : at_ r_tk (reps s) m = 0 → m < length (reps s) → snd (poll_reply m w s) ≠ OPanic.
Proof.
  intros H1 H2. unfold poll_reply. destruct (reps s !! m) as [[rx []]|] eqn:E; try done.
  - by rewrite (at_some _ _ _ _ E) in H1.
  - apply lookup_ge_None in E. lia.
Qed.
Lemma reach_pan s : reach s → Σ e_pan (log s) = 0.
Proof.
  revert s. apply (reach_inv (λ s, Σ e_pan (log s) = 0)).
  - done.
  - intros s o Hr I. destruct (api_evs o s) as [->|(e & -> & He)]; [done|]. cbn. destruct e; cbn in *; try done.
  - intros s t u rest s1 new Hr I Ht E Hthr. prj.
    assert (∀ f, g_sf f u = 1 → ∃ sf, sfs s !! f = Some sf ∧ sf_st sf = SBusy) as Hbz by (intros; by eapply busyF_at).
    assert (∀ f m, u = UReplyPoll f m → at_ r_tk (reps s) m = 0 ∧ m < length (reps s)) as H1.
    { intros f m ->. destruct (Hbz f ltac:(cbn; by rewrite Nat.eqb_refl)) as (sf & Hf & Hst).
      destruct (reach_K s Hr f m) as (K & _). pose proof (msum_head (g_um f m) _ _ _ _ Ht) as HH. cbn in HH. unfold isn in HH.
      rewrite !Nat.eqb_refl in HH. specialize (K ltac:(lia)). rewrite (at_some _ _ _ _ Hf) in K.
      pose proof (sum_lookup (f_op m) _ _ _ Hf) as H2. pose proof (sum_lookup (f_is m) _ _ _ Hf) as H3.
      pose proof (reach_tk s Hr m) as HT. pose proof (reach_uniq s Hr m) as HU. unfold lt1 in HU.
      assert (f_is m sf = 1) as E1 by (unfold f_is, fm in *; destruct (sf_mode sf) as [|[]|]; try done; injection K as ->; unfold isn; by rewrite Nat.eqb_refl).
      assert (f_op m sf = 1) as E2 by (unfold f_op; by rewrite Hst).
      destruct (Nat.ltb_spec m (length (reps s))); lia. }
    assert (∀ x rc, u = URcvPoll x → rcvs s !! x = Some rc → at_ r_tk (reps s) (rc_m rc) = 0 ∧ (rc_m rc) < length (reps s)) as H2.
    { intros x rc -> Hx. pose proof (reach_busyX s Hr x) as HB. pose proof (msum_head (g_xp x) _ _ _ _ Ht) as HH.
      cbn in HH. unfold isn in HH. rewrite Nat.eqb_refl in HH. rewrite (at_some _ _ _ _ Hx) in HB.
      pose proof (sum_lookup (x_op (rc_m rc)) _ _ _ Hx) as H2. pose proof (sum_lookup (x_is (rc_m rc)) _ _ _ Hx) as H3.
      pose proof (reach_tk s Hr (rc_m rc)) as HT. pose proof (reach_uniq s Hr (rc_m rc)) as HU. unfold lt1 in HU.
      assert (x_is (rc_m rc) rc = 1) as E1 by (unfold x_is, isn; by rewrite Nat.eqb_refl).
      assert (x_op (rc_m rc) rc = 1) as E2 by (unfold x_op, xbusy in *; destruct (rc_st rc); try lia; done).
      destruct (Nat.ltb_spec (rc_m rc) (length (reps s))); lia. }
    assert (∀ r o, u = UPollOne r o → ∃ x, ones s !! o = Some x ∧ o_st x ≠ OTaken) as H3.
    { intros r o ->. destruct (reach_own s Hr o) as [O1 O2]. pose proof (msum_head (g_one o) _ _ _ _ Ht) as HH1. pose proof (msum_head (g_pc o) _ _ _ _ Ht) as HH2.
      cbn in HH1, HH2. unfold isn in *. rewrite Nat.eqb_refl in *. destruct (at_pos o_live (ones s) o) as (x & Hx & _); [lia|].
      exists x. split; [done|]. intros Hk. rewrite (at_some _ _ _ _ Hx) in O2. unfold o_taken in O2. rewrite Hk in O2. lia. }
    assert (∀ f c, u = USendCell1 f c → ∃ x, cells1 s !! c = Some x) as H4.
    { intros f c ->. destruct (reach_cell s Hr c) as [C _]. pose proof (msum_head (g_c1 c) _ _ _ _ Ht) as HH. cbn in HH. unfold isn in HH.
      rewrite Nat.eqb_refl in HH. destruct (at_pos c_live (cells1 s) c) as (x & Hx & _); [lia|]. eauto. }
    assert (∀ f c, u = USendCellA f c → ∃ x, cellsA s !! c = Some x) as H5.
    { intros f c ->. destruct (reach_cell s Hr c) as [_ C]. pose proof (msum_head (g_cA c) _ _ _ _ Ht) as HH. cbn in HH. unfold isn in HH.
      rewrite Nat.eqb_refl in HH. destruct (at_pos c_live (cellsA s) c) as (x & Hx & _); [lia|]. eauto. }
    assert (∀ f sf, u = USendOk f → sfs s !! f = Some sf → sf_mode sf ≠ MDetached None) as H6.
    { intros f sf -> Hf. destruct (Hbz f ltac:(cbn; by rewrite Nat.eqb_refl)) as (sf' & Hf' & Hst). simplify_eq.
      destruct (reach_K s Hr f 0) as (_ & _ & _ & _ & K). rewrite !(at_some _ _ _ _ Hf) in K. unfold f_any, fk in K. rewrite Hst in K.
      intros Hm. rewrite Hm in K. by apply K; [lia|]. }
    clear Ht Hthr Hbz. exec_cases u E; repeat (progress (prj; autorewrite with fr_log)); cbn [sum_list_with e_pan];
      rewrite ?pop_broadcast_logm, ?rx_shutdown_log0 by done; try done.
    all: try (by destruct (H4 _ _ eq_refl); simplify_eq).
    all: try (by destruct (H5 _ _ eq_refl); simplify_eq).
    all: try (by destruct (H3 _ _ eq_refl) as (? & ? & ?); simplify_eq).
    all: try (by exfalso; eapply H6; eauto).
    all: clear H3 H4 H5 H6.
    all: try (exfalso; destruct (H2 _ _ eq_refl ltac:(eassumption)); by eapply poll_reply_ok).
    all: try (exfalso; destruct (H1 _ _ eq_refl); by eapply poll_reply_ok).
    all: clear H1 H2.
    all: try (match goal with |- context [pop_unicast ?s] => destruct (pop_unicast_spec s) as (x & _ & _ & Hx); rewrite Hx end; destruct x; cbn; try done; exfalso).
    all: try (destruct (heap_peek (uq s)) as [m|] eqn:Hp; [by eapply pop_unicast_some|done]).
    exfalso. destruct (heap_peek (bq_get s (h_bq h))) as [m|] eqn:Hp; [by eapply pop_broadcast_some|].
    cbn in *. by destruct (heap_peek (uq s)).
  - intros s Hr I Ho. destruct (free_evs s) as (k & -> & Hk). rewrite sum_list_with_app, I. induction k as [|e k IH]; [done|].
    cbn. destruct (Hk e ltac:(by left)) as (m & y & -> & _). cbn. apply IH. intros e' He'. apply Hk. by right.
Qed.

(** ** Which futures resolve to which kind of success *)
Definition InvOut2 (s : state) : Prop := ∀ f,
  (EvSend f OOk ∈ log s → ∃ l w, sfs s !! f = Some (SF SFin MBroadcast l w)) ∧
  (∀ x, EvSend f (OReceiver x) ∈ log s → (∃ l w, sfs s !! f = Some (SF SFin (MDetached None) l w)) ∧ ∃ rc, rcvs s !! x = Some rc).
Lemma reach_out2 s : reach s → InvOut2 s.
Proof.
  revert s. apply reach_inv; unfold InvOut2.
  - intros c f. split; [by intros ?%elem_of_nil|by intros x ?%elem_of_nil].
  - intros s o Hr I f. destruct (I f) as [I1 I2].
    assert (∀ e, e ∈ log (api o s) → e ∈ log s ∨ ev_api o e) as HB.
    { intros e. destruct (api_evs o s) as [->|(e' & -> & He)]; [by left|]. rewrite elem_of_cons. intros [->|?]; auto. }
    split.
    + intros He. apply HB in He as [He|He]; [|done]. destruct (I1 He) as (l & w & Hf). by apply (api_fin o) in Hf.
    + intros x He. apply HB in He as [He|He]; [|done]. destruct (I2 x He) as [(l & w & Hf) (rc & Hx)]. split; [by apply (api_fin o) in Hf|].
      destruct (api_rcv_fwd o s x rc Hx) as (rc' & ? & _). eauto.
  - intros s t u rest s1 new Hr I Ht E Hthr f. destruct (I f) as [I1 I2]. prj.
    destruct (exec_evs _ _ _ _ E) as (k & Hk & Hs).
    assert (∀ o, EvSend f o ∈ k → (o = OOk ∨ ∃ x, o = OReceiver x) → u = USendOk f ∨ ∃ m, u = UReplyPoll f m) as Hsrc.
    { intros o He Ho. destruct (Hs _ He) as [[-> ->]|[[-> ?]|[[m ->]|(c & _ & Hc)]]]; try (by eauto).
      - by destruct Ho as [?|[? ?]].
      - destruct Ho as [->|[? ->]]; by destruct Hc. }
    assert (∀ o, EvSend f o ∈ k → (o = OOk ∨ ∃ x, o = OReceiver x) → u = USendOk f) as Hsrc2.
    { intros o He Ho. destruct (Hsrc o He Ho) as [?|[m ->]]; [done|]. exfalso. cbn [exec] in E.
      destruct (sfs s !! f) as [sf|] eqn:Hf.
      2: { injection E as <- <-. apply app0_inv in Hk as ->. by apply elem_of_nil in He. }
      unfold poll_reply in E. destruct (reps s !! m) as [[rx []]|]; injection E as <- <-;
        (rewrite send_out_log in Hk; prj; apply app1_inv in Hk as ->; apply elem_of_list_singleton in He as [= ->]); by destruct Ho as [?|[? ?]]. }
    split.
    + rewrite Hk. intros [He|He]%elem_of_app.
      2: { destruct (I1 He) as (l & w & Hf). exists l, w. by eapply exec_fin. }
      pose proof (Hsrc2 _ He ltac:(by left)) as ->. cbn [exec] in E.
      destruct (sfs s !! f) as [[st md l w]|] eqn:Hf.
      2: { injection E as <- <-. apply app0_inv in Hk as ->. by apply elem_of_nil in He. }
      unfold exec_send_ok, panic_send in E. cbn [sf_mode sf_live sf_wk] in E. destruct md as [m|[m|]|]; injection E as <- <-; prj.
      * apply app0_inv in Hk as ->. by apply elem_of_nil in He.
      * cbn in Hk. apply app1_inv in Hk as ->. by apply elem_of_list_singleton in He.
      * exfalso. unfold emit in Hk. prj. rewrite send_out_log in Hk. apply app2_inv in Hk as ->. apply elem_of_cons in He as [?|?%elem_of_list_singleton]; done.
      * exists l, w. by rewrite sfs_send_out, list_lookup_alter, Hf.
    + intros x. rewrite Hk. intros [He|He]%elem_of_app.
      2: { destruct (I2 x He) as [(l & w & Hf) (rc & Hx)]. split; [exists l, w; by eapply exec_fin|].
           destruct (exec_rcv_fwd _ _ _ _ x rc E Hx) as (rc' & ? & _). eauto. }
      pose proof (Hsrc2 _ He ltac:(by eauto)) as ->. cbn [exec] in E.
      destruct (sfs s !! f) as [[st md l w]|] eqn:Hf.
      2: { injection E as <- <-. apply app0_inv in Hk as ->. by apply elem_of_nil in He. }
      unfold exec_send_ok, panic_send in E. cbn [sf_mode sf_live sf_wk] in E. destruct md as [m|[m|]|]; injection E as <- <-; prj.
      * apply app0_inv in Hk as ->. by apply elem_of_nil in He.
      * cbn in Hk. apply app1_inv in Hk as ->. apply elem_of_list_singleton in He as [= ->].
        split; [rewrite list_lookup_insert by (by eapply lookup_lt_Some); eauto|].
        rewrite lookup_app_r, Nat.sub_diag by done. cbn. eauto.
      * exfalso. unfold emit in Hk. prj. rewrite send_out_log in Hk. apply app2_inv in Hk as ->. apply elem_of_cons in He as [?|?%elem_of_list_singleton]; done.
      * exfalso. rewrite send_out_log in Hk. apply app1_inv in Hk as ->. by apply elem_of_list_singleton in He.
  - intros s Hr I Ho f. destruct (I f) as [I1 I2].
    assert (∀ e, e ∈ log (free_chan s) → e ∈ log s ∨ ∃ m y, e = EvDrop m y) as HB.
    { intros e. destruct (free_evs s) as (k & -> & Hk). rewrite elem_of_app. intros [He|He]; [|by left].
      destruct (Hk _ He) as (m & y & -> & _). right. by exists m, y. }
    autorewrite with fr_sfs fr_rcvs. split.
    + intros He. apply HB in He as [He|(? & ? & [=])]. auto.
    + intros x He. apply HB in He as [He|(? & ? & [=])]. auto.
Qed.

(** A detached receiver completes at most once. *)
Definition e_xfin (x : nat) (e : ev) : nat := match e with EvReceiver y o => match o with OPending => 0 | _ => isn x y end | _ => 0 end.
Definition xfin (r : rcv) : nat := match rc_st r with XFin => 1 | _ => 0 end.
Lemma reach_xfin s : reach s → ∀ x, Σ (e_xfin x) (log s) = at_ xfin (rcvs s) x.
Proof.
  revert s. apply (reach_inv (λ s, ∀ x, Σ (e_xfin x) (log s) = at_ xfin (rcvs s) x)).
  - intros c x. by rewrite at_ge by (cbn; lia).
  - intros s o Hr I x. specialize (I x).
    assert (Σ (e_xfin x) (log (api o s)) = Σ (e_xfin x) (log s)) as ->.
    { destruct (api_evs o s) as [->|(e & -> & He)]; [done|]. cbn. by destruct e. }
    rewrite I. clear I. destruct o; cbn [api]; repeat (dgoal; try done); cbv zeta; unfold add_addr; repeat dgoal;
      repeat (progress (prj; autorewrite with fr_rcvs)); sums; case_eqb; subst; ats; try done.
  - intros s t u rest s1 new Hr I Ht E Hthr x. specialize (I x). prj.
    assert ((∃ y, u = URcvPoll y) ∨ ¬ ∃ y, u = URcvPoll y) as [[y ->]|Hn] by (destruct u; eauto; right; by intros [? ?]).
    + cbn [exec] in E. destruct (rcvs s !! y) as [rc|] eqn:Ex; [|by injection E as <- <-].
      assert (rc_st rc = XBusy) as Hb.
      { pose proof (reach_busyX s Hr y) as HB. pose proof (msum_head (g_xp y) _ _ _ _ Ht) as HH.
        cbn in HH. unfold isn in HH. rewrite Nat.eqb_refl in HH. rewrite (at_some _ _ _ _ Ex) in HB. unfold xbusy in HB. destruct (rc_st rc); try lia; done. }
      destruct (poll_reply (rc_m rc) (rc_wk rc) s) as [s2 o] eqn:Ep. injection E as <- <-.
      assert (rcvs s2 = rcvs s ∧ log s2 = log s) as (E1 & E2).
      { pose proof (f_equal fst Ep) as Ep'. cbn in Ep'. subst s2. by autorewrite with fr_rcvs fr_log. }
      prj. cbn. rewrite E1, E2. sums. unfold isn. case_eqb; subst; ats; unfold xfin in *; cbn; try rewrite Hb in I; destruct o; lia.
    + assert (Σ (e_xfin x) (log s1) = Σ (e_xfin x) (log s)) as ->.
      { destruct (exec_evs _ _ _ _ E) as (k & -> & Hs). rewrite sum_list_with_app, (sum_zero _ k); [done|]. intros e He.
        specialize (Hs e He). destruct e; cbn in *; try done. exfalso. apply Hn. eauto. }
      rewrite I. clear I Ht. exec_cases u E; repeat (progress (prj; autorewrite with fr_rcvs)); try done.
      all: try (exfalso; apply Hn; by eauto).
      sums. case_eqb; subst; [rewrite at_ge by lia|]; done.
  - intros s Hr I Ho x. autorewrite with fr_rcvs. rewrite <-I. destruct (free_evs s) as (k & -> & Hk).
    rewrite sum_list_with_app, (sum_zero _ k); [done|]. intros e He. by destruct (Hk e He) as (? & ? & -> & _).
Qed.
