(** The outcome of a send: failed sends have dropped their message, successful ones have
    handed it over. *)
From stdpp Require Import base numbers list list_numbers.
From Coq Require Import Lia.
From Verif Require Import Prio Heap State Model HeapProofs Frame Lib InvBusy Effects InvMsg InvFut InvCell WaitSpec InvWs InvBlk Mono InvSend.

Lemma sum_le {A} (g h : A → nat) l : (∀ x, g x ≤ h x) → Σ g l ≤ Σ h l.
Proof. intros H. induction l as [|x l IH]; simpl; [lia|]. specialize (H x). lia. Qed.

(** ** Failed sends *)
Definition g_err (f : nat) (u : micro) : nat := match u with USendErr g => isn f g | _ => 0 end.
Definition e_serr (f : nat) (e : ev) : nat := match e with EvSend g OErrDisconnected => isn f g | _ => 0 end.

Definition InvErr (s : state) : Prop := ∀ f,
  0 < msum (g_err f) s + Σ (e_serr f) (log s) →
  f < length (sfs s) ∧ ∀ m, at_ fm (sfs s) f = S m → 0 < ndrop d_pre m s.

Lemma g_err_le f u : g_err f u ≤ g_sf f u.
Proof. destruct u; cbn; unfold is, isn; repeat case_match; lia. Qed.

(** Where failures come from. *)
Lemma err_src u s s1 new f : exec u s = (s1, new) →
  g_err f u + Σ (e_serr f) (log s) < Σ (g_err f) new + Σ (e_serr f) (log s1) →
  (∃ p k r, (u = USendLd1 f p k ∨ u = USendLd2 f p k) ∧ new = payload_drop p DDisconnected ++ r) ∨
  (∃ c l, u = USendCell1 f c ∧ cells1 s !! c = Some (WC l WClosed)) ∨
  (∃ c, u = USendCellA f c).
Proof.
  intros E. exec_cases u E; rewrite ?sum_list_with_app; try (rewrite sum_notify by done);
    unfold rx_drop, payload_drop, amsg_drop, tx_drop in *; repeat (progress (prj; autorewrite with fr_log)); cbn -[Nat.eqb]; try lia.
  all: rewrite ?pop_broadcast_logm, ?rx_shutdown_log0 by done.
  all: try (destruct (pop_unicast_spec s) as (x & _ & _ & ->); destruct x; cbn; lia).
  all: repeat match goal with |- context [Σ _ (match ?x with _ => _ end)] => destruct x end; cbn -[Nat.eqb]; try lia.
  all: unfold isn; case_eqb; subst; intros; try lia.
  all: try (left; do 3 eexists; split; [by auto|]; cbn; reflexivity).
  all: eauto 10.
  unfold poll_reply in *. by repeat case_match.
Qed.

Lemma reach_err s : reach s → InvErr s.
Proof.
  revert s. apply reach_inv; unfold InvErr.
  - intros c f. cbn. lia.
  - intros s o Hr I f. specialize (I f).
    assert (Σ (e_serr f) (log (api o s)) = Σ (e_serr f) (log s)) as ->.
    { destruct o; cbn [api]; repeat (dgoal; try done); cbv zeta; unfold add_addr; repeat dgoal;
      repeat (progress (prj; autorewrite with fr_log)); done. }
    assert (msum (g_err f) (api o s) = msum (g_err f) s) as ->.
    { destruct o; cbn [api]; repeat (dgoal; try done); cbv zeta; split_drops;
      unfold add_addr, tx_drop, payload_drop, amsg_drop, rx_drop in *; repeat dgoal;
      unfold msum; repeat (progress (prj; autorewrite with fr_thr)); rewrite ?sum_snoc; cbn; try done; lia. }
    intros H. destruct (I H) as [I1 I2]. split; [pose proof (api_sfs_len o s); lia|].
    intros m Hm. eapply Nat.lt_le_trans; [|apply api_ndrop]. destruct (api_fm _ _ _ _ Hm); [by apply I2|lia].
  - intros s t u rest s1 new Hr I Ht E Hthr f.
    pose proof (msum_step (g_err f) s t u rest new s1 Ht Hthr) as HM.
    pose proof (msum_head (g_err f) s t u rest Ht) as HH. revert HM. 
    generalize (msum (g_err f) (set_thr (<[t:=new ++ rest]> (thr s1)) s1)). intros n HM. intros H.
    assert (∀ m, ndrop d_pre m s ≤ ndrop d_pre m (set_thr (<[t:=new ++ rest]> (thr s1)) s1)) as HN by (intros; by eapply exec_ndrop).
    revert H. prj. intros H.
    destruct (decide (0 < msum (g_err f) s + Σ (e_serr f) (log s))) as [Hp|Hp].
    { destruct (I f Hp) as [I1 I2]. split; [by erewrite exec_sfs_len|].
      intros m Hm. eapply Nat.lt_le_trans; [|apply HN]. by eapply I2, exec_fm. }
    assert (g_sf f u = 1 → f < length (sfs s)) as HL.
    { intros Hf. destruct (busyF_at _ _ _ _ _ Hr Ht Hf) as (sf & H1 & H2). by eapply lookup_lt_Some. }
    pose proof (reach_K s Hr f) as HK.
    destruct (err_src _ _ _ _ f E) as [(p & k & r & Hu & ->)|[(c & l & -> & Hc)|(c & ->)]]; [lia|..].
    + split; [erewrite exec_sfs_len by done; apply HL; destruct Hu as [-> | ->]; cbn; unfold isn; by rewrite Nat.eqb_refl|].
      intros m Hm. apply (exec_fm _ _ _ _ _ _ E) in Hm.
      destruct p as [m0|b]; [|exfalso].
      * pose proof (msum_step (g_drop d_pre m) s t u rest (payload_drop (PU m0) DDisconnected ++ r) s1 Ht Hthr) as HM2.
        unfold ndrop. revert HM2.
        generalize (msum (g_drop d_pre m) (set_thr (<[t:=(payload_drop (PU m0) DDisconnected ++ r) ++ rest]> (thr s1)) s1)). intros n2 HM2.
        assert (um_id m0 = m) as <-.
        { destruct (HK (um_id m0)) as [HK1 _]. pose proof (msum_head (g_um f (um_id m0)) s t u rest Ht) as HG.
          assert (1 ≤ g_um f (um_id m0) u) by (destruct Hu as [-> | ->]; cbn; unfold is, isn; rewrite !Nat.eqb_refl; lia).
          rewrite HK1 in Hm by lia. by simplify_eq. }
        assert (g_drop d_pre (um_id m0) u = 0) by (destruct Hu as [-> | ->]; done).
        rewrite sum_list_with_app in HM2. cbn [payload_drop sum_list_with g_drop d_pre] in HM2.
        assert (is (um_id m0) m0 = 1) by (unfold is, isn; by rewrite Nat.eqb_refl). lia.
      * destruct (HK 0) as (_ & _ & HK3 & _). pose proof (msum_head (g_bro f) s t u rest Ht) as HG.
        assert (1 ≤ g_bro f u) by (destruct Hu as [-> | ->]; cbn; unfold is, isn; rewrite !Nat.eqb_refl; lia).
        unfold at_, fm, fk in *. destruct (sfs s !! f) as [[? [|[]|] ? ?]|]; cbn in *; lia.
    + split; [erewrite exec_sfs_len by done; apply HL; cbn; unfold isn; by rewrite Nat.eqb_refl|].
      intros m Hm. apply (exec_fm _ _ _ _ _ _ E) in Hm. eapply Nat.lt_le_trans; [|apply HN]. 
      destruct (reach_FC s Hr f c) as [_ HF].
      { pose proof (msum_head (g_fc f c) s t _ rest Ht) as HG. cbn in HG. unfold isn in HG. rewrite !Nat.eqb_refl in HG. lia. }
      rewrite HF in Hm. injection Hm as <-.
      destruct (reach_cell s Hr c) as [HC _]. pose proof (msum_head (g_c1 c) s t _ rest Ht) as HG. cbn in HG.
      unfold isn in HG. rewrite !Nat.eqb_refl in HG. rewrite (at_some _ _ _ _ Hc) in HC. destruct l; cbn in HC; [|lia].
      pose proof (reach_blk s Hr) as [_ HB]. destruct (HB c) as (_ & _ & HB3). rewrite (at_some _ _ _ _ Hc) in HB3.
      specialize (HB3 ltac:(cbn; lia)). unfold ndrop.
      assert (Σ (e_clo (bmsg_of s c)) (log s) ≤ Σ (e_drop d_pre (bmsg_of s c)) (log s)); [|lia].
      apply sum_le. intros []; cbn; try lia. destruct y; cbn; lia.
    + split; [erewrite exec_sfs_len by done; apply HL; cbn; unfold isn; by rewrite Nat.eqb_refl|].
      intros m Hm. apply (exec_fm _ _ _ _ _ _ E) in Hm. exfalso.
      destruct (HK 0) as (_ & _ & HK3 & _). pose proof (msum_head (g_bro f) s t _ rest Ht) as HG.
      cbn in HG. unfold isn in HG. rewrite !Nat.eqb_refl in HG.
      unfold at_, fm, fk in *. destruct (sfs s !! f) as [[? [|[]|] ? ?]|]; cbn in *; lia.
  - intros s Hr I Ho f. rewrite (msum_eq (g_err f) s (free_chan s)) by (autorewrite with fr_thr; done).
    rewrite free_log0 by done. autorewrite with fr_sfs. intros H. destruct (I f H) as [I1 I2]. split; [done|].
    intros m Hm. eapply Nat.lt_le_trans; [|apply free_ndrop]. by apply I2.
Qed.

(** ** Successful sends *)
Definition g_ok (f : nat) (u : micro) : nat := match u with USendOk g | UReplyPoll g _ => isn f g | _ => 0 end.
Definition f_done (x : sfut) : nat := match sf_st x with SDone => 1 | _ => 0 end.
Lemma g_ok_le f u : g_ok f u ≤ g_sf f u.
Proof. destruct u; cbn; unfold is, isn; repeat case_match; lia. Qed.

Definition InvOk (s : state) : Prop :=
  (∀ f m, 0 < msum (g_ok f) s + at_ f_done (sfs s) f → at_ fm (sfs s) f = S m → 0 < Σ (e_acc m) (log s)) ∧
  (∀ x rc, rcvs s !! x = Some rc → 0 < Σ (e_acc (rc_m rc)) (log s)).

(** Where successes come from. *)
Lemma ok_src u s s1 new f : exec u s = (s1, new) →
  g_ok f u + at_ f_done (sfs s) f < Σ (g_ok f) new + at_ f_done (sfs s1) f →
  (∃ p k, u = USendLock f p k ∧ ∀ m, p = PU m → 0 < Σ (e_acc (um_id m)) (log s1)) ∨
  (∃ c l, u = USendCell1 f c ∧ cells1 s !! c = Some (WC l WDelivered)) ∨
  (∃ c, u = USendCellA f c).
Proof.
  intros E. exec_cases u E; rewrite ?sum_list_with_app; try (rewrite sum_notify by done);
    unfold rx_drop, payload_drop, amsg_drop, tx_drop in *; repeat (progress (prj; autorewrite with fr_sfs)); sums; cbn -[Nat.eqb]; try lia.
  all: repeat match goal with |- context [Σ _ (match ?x with _ => _ end)] => destruct x end; cbn -[Nat.eqb]; try lia.
  all: unfold isn; case_eqb; subst; intros; try lia.
  all: ats; cbn in *; try lia; eauto 10.
  all: try (left; do 2 eexists; split; [by auto|]; intros ? [= <-]; prj; autorewrite with fr_log; cbn; unfold isn; rewrite Nat.eqb_refl; lia).
  all: try (left; do 2 eexists; split; [by auto|]; intros ? [=]).
Qed.

(** Detached receivers: every one is known, or was made from a successful detached send. *)
Lemma exec_rcvs u s s1 new x rc : exec u s = (s1, new) → rcvs s1 !! x = Some rc →
  (∃ rc0, rcvs s !! x = Some rc0 ∧ rc_m rc0 = rc_m rc) ∨
  (∃ f, u = USendOk f ∧ at_ fm (sfs s) f = S (rc_m rc)).
Proof.
  intros E. exec_cases u E; repeat (progress (prj; autorewrite with fr_rcvs)); eauto.
  1: { intros [H|[_ H]]%lookup_app_Some; [eauto|]. destruct (x - length (rcvs s)); [|done]. cbn in H. injection H as <-.
    right. eexists. split; [done|]. ats. unfold fm. by rewrite Em0. }
  all: intros [(-> & <- & _)|[_ H]]%list_lookup_insert_Some; [|eauto]; left; eauto.
Qed.
Lemma api_rcvs o s x rc : rcvs (api o s) !! x = Some rc → ∃ rc0, rcvs s !! x = Some rc0 ∧ rc_m rc0 = rc_m rc.
Proof.
  destruct o; cbn [api]; repeat (dgoal; try by eauto); cbv zeta; unfold add_addr; repeat dgoal;
    repeat (progress (prj; autorewrite with fr_rcvs)); eauto.
  all: intros [(-> & <- & _)|[_ H]]%list_lookup_insert_Some; eauto.
Qed.
Lemma api_ok f o s : reach s → msum (g_ok f) (api o s) + at_ f_done (sfs (api o s)) f ≤ msum (g_ok f) s + at_ f_done (sfs s) f.
Proof.
  intros Hr. 
  assert (f_done = λ x, match sf_st x with SDone => 1 | _ => 0 end) as Hd by done.
  do_api o ltac:(autorewrite with fr_sfs). all: try (unfold f_done, isn; cbn; case_eqb; lia).
Qed.

Lemma reach_ok s : reach s → InvOk s.
Proof.
  revert s. apply reach_inv; unfold InvOk.
  - intros c. split; [intros f m; cbn; unfold at_; destruct f; cbn; lia|done].
  - intros s o Hr [I1 I2].
    pose proof (λ m, logx_sum (e_acc m) _ _ (api_logx o s)) as HL. split.
    + intros f m Hp Hm. pose proof (api_ok f o s Hr) as HO. eapply Nat.lt_le_trans; [|apply HL].
      destruct (api_fm _ _ _ _ Hm) as [Hm0| ->]; [apply (I1 f); [lia|done]|exfalso].
      rewrite (at_ge f_done (sfs s)) in HO by lia.
      assert (msum (g_ok (length (sfs s))) s = 0); [|lia].
      eapply (busyF_none _ _ (length (sfs s))); [done|by apply at_ge|apply g_ok_le].
    + intros x rc Hx. destruct (api_rcvs _ _ _ _ Hx) as (rc0 & H0 & <-).
      eapply Nat.lt_le_trans; [by eapply I2|apply HL].
  - intros s t u rest s1 new Hr [I1 I2] Ht E Hthr. prj.
    pose proof (λ m, logx_sum (e_acc m) _ _ (exec_logx _ _ _ _ E)) as HL.
    split.
    2: { intros x rc Hx. eapply Nat.lt_le_trans; [|apply HL].
         destruct (exec_rcvs _ _ _ _ _ _ E Hx) as [(rc0 & H0 & <-)|(f & -> & Hf)]; [by eapply I2|].
         eapply I1; [|done]. pose proof (msum_head (g_ok f) s t _ rest Ht) as HG. cbn in HG. unfold isn in HG.
         rewrite Nat.eqb_refl in HG. lia. }
    intros f m Hp Hm. apply (exec_fm _ _ _ _ _ _ E) in Hm.
    pose proof (msum_step (g_ok f) s t u rest new s1 Ht Hthr) as HM.
    pose proof (msum_head (g_ok f) s t u rest Ht) as HH. revert HM Hp.
    generalize (msum (g_ok f) (set_thr (<[t:=new ++ rest]> (thr s1)) s1)). intros n HM Hp.
    destruct (decide (0 < msum (g_ok f) s + at_ f_done (sfs s) f)) as [Hq|Hq].
    { eapply Nat.lt_le_trans; [|apply HL]. by eapply I1. }
    pose proof (reach_K s Hr f) as HK.
    destruct (ok_src _ _ _ _ f E) as [(p & k & -> & Hacc)|[(c & l & -> & Hc)|(c & ->)]]; [lia|..].
    + destruct p as [m0|b]; [|exfalso].
      * assert (um_id m0 = m) as <-; [|by apply Hacc].
        destruct (HK (um_id m0)) as [HK1 _]. pose proof (msum_head (g_um f (um_id m0)) s t _ rest Ht) as HG.
        cbn in HG. unfold is, isn in HG. rewrite !Nat.eqb_refl in HG.
        rewrite HK1 in Hm by lia. by simplify_eq.
      * destruct (HK 0) as (_ & _ & HK3 & _). pose proof (msum_head (g_bro f) s t _ rest Ht) as HG.
        cbn in HG. unfold isn in HG. rewrite !Nat.eqb_refl in HG.
        unfold at_, fm, fk in *. destruct (sfs s !! f) as [[? [|[]|] ? ?]|]; cbn in *; lia.
    + eapply Nat.lt_le_trans; [|apply HL].
      destruct (reach_FC s Hr f c) as [_ HF].
      { pose proof (msum_head (g_fc f c) s t _ rest Ht) as HG. cbn in HG. unfold isn in HG. rewrite !Nat.eqb_refl in HG. lia. }
      rewrite HF in Hm. injection Hm as <-.
      destruct (reach_cell s Hr c) as [HC _]. pose proof (msum_head (g_c1 c) s t _ rest Ht) as HG. cbn in HG.
      unfold isn in HG. rewrite !Nat.eqb_refl in HG. rewrite (at_some _ _ _ _ Hc) in HC. destruct l; cbn in HC; [|lia].
      pose proof (reach_blk s Hr) as [_ HB]. destruct (HB c) as (_ & HB2 & _). rewrite (at_some _ _ _ _ Hc) in HB2.
      apply HB2. cbn. lia.
    + exfalso.
      destruct (HK 0) as (_ & _ & HK3 & _). pose proof (msum_head (g_bro f) s t _ rest Ht) as HG.
      cbn in HG. unfold isn in HG. rewrite !Nat.eqb_refl in HG.
      unfold at_, fm, fk in *. destruct (sfs s !! f) as [[? [|[]|] ? ?]|]; cbn in *; lia.
  - intros s Hr [I1 I2] Ho. pose proof (λ m, logx_sum (e_acc m) _ _ (free_logx s)) as HL.
    setoid_rewrite (msum_eq _ s (free_chan s)); [|by autorewrite with fr_thr].
    autorewrite with fr_sfs fr_rcvs. split.
    + intros f m Hp Hm. eapply Nat.lt_le_trans; [by eapply I1|apply HL].
    + intros x rc Hx. eapply Nat.lt_le_trans; [by eapply I2|apply HL].
Qed.
