(** Registered wakers: whoever waits has its latest waker registered, or has been woken. *)
From stdpp Require Import base numbers list list_numbers.
From Coq Require Import Lia.
From Verif Require Import Prio Heap State Model HeapProofs Frame Lib InvBusy InvCount Effects InvMsg InvOne InvFut InvCell InvDisc InvRep InvPoll InvSmall Mono Events WakeRel FinalE.

(** ** Receive futures *)
Definition InvWR (s : state) : Prop := ∀ r b k w o, hols s !! r = Some (HO b (HRecvWait o) k w) → good pdo (ones s) o w (wakes s).
Lemma exec_hols_wait u s s1 new r b o k w : exec u s = (s1, new) → hols s1 !! r = Some (HO b (HRecvWait o) k w) →
  hols s !! r = Some (HO b (HRecvWait o) k w) ∨ (u = UPollOne r o ∧ good pdo (ones s1) o w (wakes s1)).
Proof.
  intros E. exec_cases u E; unfold deliver;
   repeat (progress (prj; autorewrite with fr_hols));
   try (by left).
  all: try (intros [H|[_ H]]%lookup_app_Some; [by left|]; by apply list_lookup_singleton_Some in H as [_ [=]]).
  all: intros H; match type of H with alter _ ?r0 _ !! ?r = _ => destruct (decide (r0 = r)) as [->|]; [rewrite list_lookup_alter, Em in H; cbn in H|rewrite list_lookup_alter_ne in H by done; by left] end.
  all: simplify_eq. right. split; [done|]. exists (ON o_rx (OEmpty (Some (h_wk h)))).
  unfold set_hst. prj. rewrite Em. prj. rewrite list_lookup_insert by (by eapply lookup_lt_Some). split; [done|by left].
Qed.
Lemma api_hols_wait p s r b o k w : hols (api p s) !! r = Some (HO b (HRecvWait o) k w) → hols s !! r = Some (HO b (HRecvWait o) k w).
Proof.
  destruct p; cbn [api]; repeat (dgoal; try done); cbv zeta; unfold add_addr; repeat dgoal;
    repeat (progress (prj; autorewrite with fr_hols)); try done;
    try (intros [H|[_ H]]%lookup_app_Some; [done|]; by apply list_lookup_singleton_Some in H as [_ [=]]);
    intros [(-> & [=] & _)|[_ ?]]%list_lookup_insert_Some; done.
Qed.
Lemma own_api_in x p s : x ∈ own_api p s → ∃ j l k w, p = APollJoin j ∧ jhs s !! j = Some (JH (Some l) k w) ∧ x = KL l.
Proof.
  destruct p; cbn [own_api]; try (by intros ?%elem_of_nil). destruct (jhs s !! j) as [[[l|] k w]|] eqn:E; try (by intros ?%elem_of_nil).
  intros ->%elem_of_list_singleton. by exists j, l, k, w.
Qed.
Lemma wait_sum s r b k w o : hols s !! r = Some (HO b (HRecvWait o) k w) → 1 ≤ Σ (h_wait o) (hols s).
Proof. intros H. apply (sum_lookup (h_wait o)) in H. unfold h_wait in H at 1. cbn in H. unfold isn in H. by rewrite Nat.eqb_refl in H. Qed.
Lemma reach_wr s : reach s → InvWR s.
Proof.
  revert s. apply reach_inv; unfold InvWR.
  - intros c r b k w o. cbn. destruct r as [|[]]; done.
  - intros s p Hr I r b k w o Hh%api_hols_wait. destruct (api_rel p s) as (R1 & R2 & _). eapply good_tr; [exact R2|exact R1| |by eapply I].
    by intros (? & ? & ? & ? & _ & _ & [=])%own_api_in.
  - intros s t u rest s1 new Hr I Ht E Hthr r b k w o. prj. intros Hh.
    destruct (exec_hols_wait _ _ _ _ _ _ _ _ _ E Hh) as [Hh'|[_ ?]]; [|done].
    destruct (exec_rel _ _ _ _ E) as (R1 & R2 & _). eapply good_tr; [exact R2|exact R1| |by eapply I].
    pose proof (wait_sum _ _ _ _ _ _ Hh'). destruct (reach_own s Hr o) as [O1 O2].
    assert (at_ o_live (ones s) o ≤ 1) by (unfold at_; case_match; [|lia]; unfold o_live; repeat case_match; lia).
    pose proof (msum_head (g_one o) s t u rest Ht) as M1. pose proof (msum_head (g_pc o) s t u rest Ht) as M2.
    intros HX. destruct u; cbn [own] in HX; try (by apply not_elem_of_nil in HX); try (apply elem_of_list_singleton in HX; try done; injection HX as ->);
      cbn in M1, M2; unfold isn in M1, M2; rewrite ?Nat.eqb_refl in M1; rewrite ?Nat.eqb_refl in M2; try lia.
    case_match; [by apply elem_of_list_singleton in HX|by apply elem_of_nil in HX].
  - intros s Hr I Ho r b k w o. autorewrite with fr_hols. intros Hh. destruct (free_rel [] s) as (R1 & R2 & _). eapply good_tr; [exact R2|exact R1|apply not_elem_of_nil|by eapply I].
Qed.

(** ** Send futures *)
Definition sgood (s : state) (x : sfut) : Prop :=
  match sf_st x, sf_mode x with
  | SWait c, MBroadcast => good pdc (cellsA s) c (sf_wk x) (wakes s)
  | SWait c, _ => good pdc (cells1 s) c (sf_wk x) (wakes s)
  | SDone, MReturn m => good pdr (reps s) m (sf_wk x) (wakes s)
  | _, _ => True
  end.
Definition InvWS (s : state) : Prop := ∀ f x, sfs s !! f = Some x → sgood s x.
Lemma poll_pending m w s W : (poll_reply m w s).2 = OPending → good pdr (reps (poll_reply m w s).1) m w W.
Proof.
  unfold poll_reply. destruct (reps s !! m) as [[rx [ww| | |]]|] eqn:E; try done. intros _. exists (RP rx (REmpty (Some w))). cbn [fst]. prj.
  rewrite list_lookup_insert by (by eapply lookup_lt_Some). split; [done|by left].
Qed.
Lemma set_sst_reps f x s : reps (set_sst f x s) = reps s. Proof. unfold set_sst. by case_match. Qed.
Lemma set_sst_wakes f x s : wakes (set_sst f x s) = wakes s. Proof. unfold set_sst. by case_match. Qed.
Lemma set_sst_cells1 f x s : cells1 (set_sst f x s) = cells1 s. Proof. unfold set_sst. by case_match. Qed.
Lemma set_sst_cellsA f x s : cellsA (set_sst f x s) = cellsA s. Proof. unfold set_sst. by case_match. Qed.
Lemma exec_sfs_wait u s s1 new f x : exec u s = (s1, new) → sfs s1 !! f = Some x →
  sfs s !! f = Some x ∨ sf_st x = SFin ∨
  ∃ y, sfs s !! f = Some y ∧ sf_mode y = sf_mode x ∧ sf_wk y = sf_wk x ∧
   ((∃ c, u = USendCell1 f c ∧ sf_st x = SWait c ∧ good pdc (cells1 s1) c (sf_wk x) (wakes s1)) ∨
    (∃ c, u = USendCellA f c ∧ sf_st x = SWait c ∧ good pdc (cellsA s1) c (sf_wk x) (wakes s1)) ∨
    (∃ m, u = UReplyPoll f m ∧ sf_st x = SDone ∧ good pdr (reps s1) m (sf_wk x) (wakes s1))).
Proof.
  intros E. exec_cases u E; unfold send_out; repeat (progress (prj; autorewrite with fr_sfs)); try (by left); intros H.
  all: try (apply list_lookup_insert_Some in H as [(-> & <- & _)|[_ H]]; [by right; left|by left]).
  all: match type of H with alter _ ?a _ !! ?b = _ => destruct (decide (a = b)) as [->|]; [rewrite list_lookup_alter in H|rewrite list_lookup_alter_ne in H by done; by left] end.
  all: destruct (sfs s !! f) as [y|] eqn:Ey; cbn in H; simplify_eq; try (by right; left).
  all: right; right; exists s0; (split_and!; [done..|]).
  - left. exists c. split_and!; [done..|]. rewrite set_sst_cells1. prj. exists (WC wc_alive (WActive (Some (sf_wk s0)) m)).
    rewrite list_lookup_insert by (by eapply lookup_lt_Some). split; [done|by left].
  - right; left. exists c. split_and!; [done..|]. rewrite set_sst_cellsA. prj. exists (WC wc_alive (WActive (Some (sf_wk s0)) m)).
    rewrite list_lookup_insert by (by eapply lookup_lt_Some). split; [done|by left].
  - right; right. exists m. split_and!; [done..|]. rewrite set_sst_reps. by apply poll_pending.
Qed.
Lemma api_sfs_wait p s f x : sfs (api p s) !! f = Some x → sf_st x = SFin ∨ sf_st x = SBusy ∨ (∃ a b, sf_st x = SNew a b) ∨ sfs s !! f = Some x ∨
  ∃ y m, sfs s !! f = Some y ∧ sf_st x = sf_st y ∧ sf_wk x = sf_wk y ∧ sf_mode y = MReturn m ∧ sf_mode x = MDetached (Some m).
Proof.
  destruct p; cbn [api]; repeat (dgoal; try eauto 10); cbv zeta; unfold add_addr, put_sf; repeat dgoal;
    repeat (progress (prj; autorewrite with fr_sfs)); try eauto 10;
    try (intros [H|[_ H]]%lookup_app_Some; [eauto|]; apply list_lookup_singleton_Some in H as [_ <-]; cbn; eauto 10);
    intros [(-> & <- & _)|[_ ?]]%list_lookup_insert_Some; eauto 10; cbn; eauto 10.
  all: do 4 right; eexists _, _; split_and!; [done..|reflexivity].
Qed.
Lemma mode1 s t u rest f m x : reach s → thr s !! t = Some (u :: rest) → u = UReplyPoll f m → sfs s !! f = Some x → sf_mode x = MReturn m.
Proof.
  intros Hr Ht -> Hf. destruct (reach_K s Hr f m) as (K1 & _ & _ & K4 & _).
  pose proof (msum_head (g_um f m) s t _ rest Ht) as M1. pose proof (msum_head (g_rpl f) s t _ rest Ht) as M2. cbn in M1, M2.
  unfold isn in M1, M2. rewrite !Nat.eqb_refl in M1. rewrite !Nat.eqb_refl in M2.
  specialize (K1 ltac:(lia)). specialize (K4 ltac:(lia)). unfold at_ in K1, K4. rewrite Hf in K1, K4. unfold fm in K1. unfold fk in K4.
  destruct (sf_mode x) as [|[]|]; try done. by injection K1 as ->.
Qed.
Lemma busy_at s t u rest f x : reach s → thr s !! t = Some (u :: rest) → g_sf f u = 1 → sfs s !! f = Some x → sf_st x = SBusy.
Proof.
  intros Hr Ht Hu Hf. pose proof (reach_busyF s Hr f) as HB. pose proof (msum_head (g_sf f) s t u rest Ht) as HM. rewrite Hu in HM.
  unfold at_ in HB. rewrite Hf in HB. unfold isbusy in HB. destruct (sf_st x); try lia. done.
Qed.
Lemma own_reply s t u rest m f x : reach s → thr s !! t = Some (u :: rest) → sfs s !! f = Some x → sf_st x = SDone → sf_mode x = MReturn m → KR m ∉ own u s.
Proof.
  intros Hr Ht Hf Hs Hm HX. pose proof (reach_uniq s Hr m) as HU. pose proof (lt1_le m (length (reps s))) as HL.
  pose proof (sum_lookup (f_is m) _ _ _ Hf) as HF. unfold f_is in HF at 1. rewrite Hm in HF. unfold isn in HF. rewrite Nat.eqb_refl in HF.
  destruct u; cbn [own] in HX; try (by apply elem_of_nil in HX); try (by apply elem_of_list_singleton in HX).
  - destruct (rcvs s !! x0) as [rc|] eqn:Ex; [|by apply elem_of_nil in HX]. apply elem_of_list_singleton in HX as [= ->].
    pose proof (sum_lookup (x_is (rc_m rc)) _ _ _ Ex) as HY. unfold x_is in HY at 1. unfold isn in HY. rewrite Nat.eqb_refl in HY. lia.
  - apply elem_of_list_singleton in HX as [= <-].
    assert (∃ y, sfs s !! f0 = Some y) as [y Hy].
    { apply lookup_lt_is_Some. pose proof (reach_busyF s Hr f0) as HB. pose proof (msum_head (g_sf f0) s t _ rest Ht) as HM. cbn in HM. rewrite Nat.eqb_refl in HM.
      destruct (decide (f0 < length (sfs s))); [done|]. rewrite at_ge in HB by lia. lia. }
    pose proof (mode1 _ _ _ _ _ _ _ Hr Ht eq_refl Hy) as Hy2.
    assert (f0 ≠ f) as Hne. { intros ->. pose proof (busy_at _ _ _ _ f _ Hr Ht ltac:(cbn; by rewrite Nat.eqb_refl) Hy). congruence. }
    pose proof (sum_two (f_is m) _ _ _ _ _ Hy Hf Hne) as H2. unfold f_is in H2 at 1 2. rewrite Hy2, Hm in H2. unfold isn in H2. rewrite Nat.eqb_refl in H2. lia.
Qed.
Lemma own_cell1 s t u rest c f x : reach s → thr s !! t = Some (u :: rest) → sfs s !! f = Some x → sf_st x = SWait c → sf_mode x ≠ MBroadcast → K1 c ∉ own u s.
Proof.
  intros Hr Ht Hf Hs Hm HX. destruct (reach_cell s Hr c) as [HC _]. pose proof (sum_lookup (f_c1 c) _ _ _ Hf) as HF. unfold f_c1 in HF at 1. rewrite Hs in HF.
  assert (1 ≤ Σ (f_c1 c) (sfs s)) by (unfold isn in HF; rewrite Nat.eqb_refl in HF; by destruct (sf_mode x)).
  assert (at_ c_live (cells1 s) c ≤ 1) by (apply at_bound; intros y; unfold c_live; destruct (wc_alive y); lia).
  pose proof (msum_head (g_c1 c) s t _ rest Ht) as HM.
  destruct u; cbn [own] in HX; try (by apply elem_of_nil in HX); try (apply elem_of_list_singleton in HX; try done; injection HX as ->).
  3: { destruct (rcvs s !! x0); [by apply elem_of_list_singleton in HX|by apply elem_of_nil in HX]. }
  all: cbn in HM; unfold isn in HM; rewrite Nat.eqb_refl in HM; lia.
Qed.
Lemma own_cellA s t u rest c f x : reach s → thr s !! t = Some (u :: rest) → sfs s !! f = Some x → sf_st x = SWait c → sf_mode x = MBroadcast → KA c ∉ own u s.
Proof.
  intros Hr Ht Hf Hs Hm HX. destruct (reach_cell s Hr c) as [_ HC]. pose proof (sum_lookup (f_cA c) _ _ _ Hf) as HF. unfold f_cA in HF at 1. rewrite Hs, Hm in HF.
  unfold isn in HF. rewrite Nat.eqb_refl in HF.
  assert (at_ c_live (cellsA s) c ≤ 1) by (apply at_bound; intros y; unfold c_live; destruct (wc_alive y); lia).
  pose proof (msum_head (g_cA c) s t _ rest Ht) as HM.
  destruct u; cbn [own] in HX; try (by apply elem_of_nil in HX); try (apply elem_of_list_singleton in HX; try done; injection HX as ->).
  3: { destruct (rcvs s !! x0); [by apply elem_of_list_singleton in HX|by apply elem_of_nil in HX]. }
  all: cbn in HM; unfold isn in HM; rewrite Nat.eqb_refl in HM; lia.
Qed.
Lemma sgood_rel X s s1 x : Rel X s s1 →
  (∀ c, sf_st x = SWait c → sf_mode x ≠ MBroadcast → K1 c ∉ X) → (∀ c, sf_st x = SWait c → sf_mode x = MBroadcast → KA c ∉ X) →
  (∀ m, sf_st x = SDone → sf_mode x = MReturn m → KR m ∉ X) → sgood s x → sgood s1 x.
Proof.
  intros (R1 & R2 & R3 & R4 & R5 & R6) H1 HA HR. unfold sgood. destruct (sf_st x) as [| |c| |] eqn:Es; try done.
  - destruct (sf_mode x) eqn:Em; intros HG.
    + eapply good_tr; [exact R3|exact R1|by apply H1|exact HG].
    + eapply good_tr; [exact R3|exact R1|by apply H1|exact HG].
    + eapply good_tr; [exact R4|exact R1|by apply HA|exact HG].
  - destruct (sf_mode x) eqn:Em; try done. intros HG. eapply good_tr; [exact R5|exact R1|by apply HR|exact HG].
Qed.
Lemma reach_wsend s : reach s → InvWS s.
Proof.
  revert s. apply reach_inv; unfold InvWS.
  - intros c f x. cbn. by destruct f.
  - intros s p Hr I f x Hf. pose proof (api_rel p s) as R.
    assert (∀ x, sgood s x → sgood (api p s) x) as Hk.
    { intros y. apply (sgood_rel _ _ _ _ R); intros; by intros (? & ? & ? & ? & _ & _ & [=])%own_api_in. }
    destruct (api_sfs_wait _ _ _ _ Hf) as [E|[E|[(a & b & E)|[E|(y & m & Hy & E1 & E2 & E3 & E4)]]]]; try (by unfold sgood; rewrite E). { by eapply Hk, I. }
    apply I in Hy. apply Hk in Hy. revert Hy. unfold sgood. rewrite E1, E2, E3, E4. by destruct (sf_st y).
  - intros s t u rest s1 new Hr I Ht E Hthr f x. prj. intros Hf.
    destruct (exec_sfs_wait _ _ _ _ _ _ E Hf) as [Hy|[Hy|(y & Hy & Em & Ew & [(c & -> & Es & HG)|[(c & -> & Es & HG)|(m & -> & Es & HG)]])]].
    + change (sgood s1 x). eapply (sgood_rel _ _ _ _ (exec_rel _ _ _ _ E)); [| | |by eapply I].
      * intros. by eapply own_cell1. * intros. by eapply own_cellA. * intros. by eapply own_reply.
    + unfold sgood. by rewrite Hy.
    + unfold sgood. rewrite Es. destruct (reach_K s Hr f 0) as (_ & HK & _). pose proof (msum_head (g_uni f) s t _ rest Ht) as HM. cbn in HM. unfold isn in HM. rewrite Nat.eqb_refl in HM.
      specialize (HK ltac:(lia)). unfold at_, fk in HK. rewrite Hy, Em in HK. destruct (sf_mode x); try done. lia.
    + unfold sgood. rewrite Es. destruct (reach_K s Hr f 0) as (_ & _ & HK & _). pose proof (msum_head (g_bro f) s t _ rest Ht) as HM. cbn in HM. unfold isn in HM. rewrite Nat.eqb_refl in HM.
      specialize (HK ltac:(lia)). unfold at_, fk in HK. rewrite Hy, Em in HK. destruct (sf_mode x) as [|[]|]; try done.
    + unfold sgood. rewrite Es. pose proof (mode1 _ _ _ _ _ _ _ Hr Ht eq_refl Hy) as Hm. rewrite Em in Hm. by rewrite Hm.
  - intros s Hr I Ho f x. autorewrite with fr_sfs. intros Hf. eapply (sgood_rel []); [apply free_rel|..|by eapply I]; intros; apply not_elem_of_nil.
Qed.
(** ** Detached receivers *)
Definition InvWX (s : state) : Prop := ∀ x m l w, rcvs s !! x = Some (RC m XIdle l w) → EvReceiver x OPending ∈ log s → good pdr (reps s) m w (wakes s).
Lemma exec_rcvs_wait u s s1 new x m l w : exec u s = (s1, new) → rcvs s1 !! x = Some (RC m XIdle l w) →
  rcvs s !! x = Some (RC m XIdle l w) ∨ length (rcvs s) ≤ x ∨ (u = URcvPoll x ∧ good pdr (reps s1) m w (wakes s1)).
Proof.
  intros E. exec_cases u E; repeat (progress (prj; autorewrite with fr_rcvs)); try (by left); intros H.
  1: { apply lookup_app_Some in H as [H|[H _]]; auto. }
  all: apply list_lookup_insert_Some in H as [(-> & H & _)|[_ H]]; [|by left]; right; right; simplify_eq; (split; [done|]).
  by apply poll_pending.
Qed.
Lemma api_rcvs_wait o s x m l w : rcvs (api o s) !! x = Some (RC m XIdle l w) → ∃ l', rcvs s !! x = Some (RC m XIdle l' w).
Proof.
  destruct o; cbn [api]; repeat (dgoal; try by eauto); cbv zeta; unfold add_addr; repeat dgoal; repeat (progress (prj; autorewrite with fr_rcvs)); eauto.
  all: intros [(-> & [=] & _)|[_ ?]]%list_lookup_insert_Some; subst; eauto.
Qed.
Lemma own_reply_x s t u rest m x l w : reach s → thr s !! t = Some (u :: rest) → rcvs s !! x = Some (RC m XIdle l w) → KR m ∉ own u s.
Proof.
  intros Hr Ht Hx HX. pose proof (reach_uniq s Hr m) as HU. pose proof (lt1_le m (length (reps s))) as HL.
  pose proof (sum_lookup (x_is m) _ _ _ Hx) as HF. unfold x_is in HF at 1; unfold isn in HF; cbn in HF. rewrite Nat.eqb_refl in HF.
  destruct u; cbn [own] in HX; try (by apply elem_of_nil in HX); try (by apply elem_of_list_singleton in HX).
  - destruct (rcvs s !! x0) as [rc|] eqn:Ex; [|by apply elem_of_nil in HX]. apply elem_of_list_singleton in HX as [= ->].
    assert (x0 ≠ x) as Hne. { intros ->. pose proof (reach_busyX s Hr x) as HB. pose proof (msum_head (g_xp x) s t _ rest Ht) as HM. cbn in HM. unfold isn in HM. rewrite Nat.eqb_refl in HM.
      unfold at_ in HB. rewrite Hx in HB. cbn in HB. lia. }
    pose proof (sum_two (x_is (rc_m rc)) _ _ _ _ _ Ex Hx Hne) as H2. unfold x_is in H2 at 1 2; unfold isn in H2; cbn in H2. rewrite Nat.eqb_refl in H2. lia.
  - apply elem_of_list_singleton in HX as [= <-].
    assert (∃ y, sfs s !! f = Some y) as [y Hy].
    { apply lookup_lt_is_Some. pose proof (reach_busyF s Hr f) as HB. pose proof (msum_head (g_sf f) s t _ rest Ht) as HM. cbn in HM. rewrite Nat.eqb_refl in HM.
      destruct (decide (f < length (sfs s))); [done|]. rewrite at_ge in HB by lia. lia. }
    pose proof (mode1 _ _ _ _ _ _ _ Hr Ht eq_refl Hy) as Hy2.
    pose proof (sum_lookup (f_is m) _ _ _ Hy) as H2. unfold f_is in H2 at 1. rewrite Hy2 in H2. unfold isn in H2. rewrite Nat.eqb_refl in H2. lia.
Qed.
Lemma reach_wx s : reach s → InvWX s.
Proof.
  revert s. apply reach_inv; unfold InvWX.
  - intros c x m l w. cbn. by destruct x.
  - intros s o Hr I x m l w Hx He. destruct (api_rcvs_wait _ _ _ _ _ _ Hx) as [l' Hx'].
    destruct (api_rel o s) as (R1 & _ & _ & _ & R5 & _). eapply good_tr; [exact R5|exact R1| |eapply I; [exact Hx'|]].
    + by intros (? & ? & ? & ? & _ & _ & [=])%own_api_in.
    + destruct (api_evs o s) as [E|(e & E & Hs)]; rewrite E in He; [done|]. by apply elem_of_cons in He as [<-|?].
  - intros s t u rest s1 new Hr I Ht E Hthr x m l w. prj. intros Hx He.
    destruct (exec_rcvs_wait _ _ _ _ _ _ _ _ E Hx) as [Hx'|[Hx'|[_ ?]]]; [| |done].
    + destruct (exec_evs _ _ _ _ E) as (k & Ek & Hk). rewrite Ek in He. apply elem_of_app in He as [He|He].
      { apply Hk in He. cbn in He. subst u. pose proof (reach_busyX s Hr x) as HB. pose proof (msum_head (g_xp x) s t _ rest Ht) as HM. cbn in HM. unfold isn in HM. rewrite Nat.eqb_refl in HM.
        unfold at_ in HB. rewrite Hx' in HB. cbn in HB. lia. }
      destruct (exec_rel _ _ _ _ E) as (R1 & _ & _ & _ & R5 & _). eapply good_tr; [exact R5|exact R1| |by eapply I]. by eapply own_reply_x.
    + destruct (exec_evs _ _ _ _ E) as (k & Ek & Hk). rewrite Ek in He. apply elem_of_app in He as [He|He].
      * apply Hk in He. cbn in He. subst u. pose proof (reach_busyX s Hr x) as HB. pose proof (msum_head (g_xp x) s t _ rest Ht) as HM. cbn in HM. unfold isn in HM. rewrite Nat.eqb_refl in HM.
        rewrite at_ge in HB by lia. lia.
      * apply (reach_out s Hr) in He as (rc & Hrc & _). apply lookup_lt_Some in Hrc. lia.
  - intros s Hr I Ho x m l w. autorewrite with fr_rcvs. intros Hx He.
    destruct (free_evs s) as (k & Ek & Hk). rewrite Ek in He. apply elem_of_app in He as [He|He]. { by apply Hk in He as (? & ? & [=] & _). }
    destruct (free_rel [] s) as (R1 & _ & _ & _ & R5 & _). eapply good_tr; [exact R5|exact R1|apply not_elem_of_nil|by eapply I].
Qed.
