(** Consequences for wake-ups and join handles. *)
From stdpp Require Import base numbers list list_numbers.
From Coq Require Import Lia.
From Verif Require Import Prio Heap State Model HeapProofs Frame Lib InvBusy InvCount Effects InvMsg InvOne InvFut InvCell InvDisc InvRep InvPoll InvSmall Mono Events Spec Bridge WakeRel FinalB FinalC FinalE FinalF FinalG InvWake InvFresh InvJoin.

(** A call of one action produces the events of that action. *)
Definition drops_only (s s' : state) : Prop := ∃ k, log s' = k ++ log s ∧ ∀ e, e ∈ k → ∃ m y, e = EvDrop m y.
Lemma collect_log s : drops_only s (collect s).
Proof.
  unfold collect. destruct (chan_owned s); [exists []; split; [done|by intros ? ?%elem_of_nil]|]. destruct (free_evs s) as (k & E & Hk). exists k. split; [done|].
  intros e He. apply Hk in He as (m & y & -> & _). eauto.
Qed.
Lemma drops_trans s1 s2 s3 : drops_only s1 s2 → drops_only s2 s3 → drops_only s1 s3.
Proof. intros (k1 & E1 & H1) (k2 & E2 & H2). exists (k2 ++ k1). split; [by rewrite E2, E1, app_assoc|]. intros e [?|?]%elem_of_app; auto. Qed.
Lemma collect_thr s : thr (collect s) = thr s.
Proof. unfold collect. destruct (chan_owned s); [done|]. by autorewrite with fr_thr. Qed.
Lemma nop_steps s t n : thr s !! t = Some [] → drops_only s (run s (replicate n (Step t))).
Proof.
  revert s; induction n as [|n IH]; intros s Ht; [exists []; split; [done|by intros ? ?%elem_of_nil]|].
  change (run s (replicate (S n) (Step t))) with (run (step s (Step t)) (replicate n (Step t))).
  assert (step s (Step t) = collect s) as -> by (unfold step, do_step; by rewrite Ht).
  eapply drops_trans; [apply collect_log|]. apply IH. by rewrite collect_thr.
Qed.
Lemma one_call s o u s1 e0 e n : thr (api o s) = thr s ++ [[u]] → log (api o s) = log s → (∀ t, o ≠ Step t) → exec u (api o s) = (s1, []) → log s1 = e0 :: log s →
  thr s1 = thr (api o s) → newly s (run s (o :: replicate n (Step (length (thr s))))) e → e = e0 ∨ (∃ m y, e = EvDrop m y).
Proof.
  intros Ht Hl Ho E Hl1 Ht1 (k & Hb & He).
  assert (step s o = api o s) as Es.
  { assert (step s o = collect (api o s)) as -> by (destruct o; try done; by edestruct Ho). apply owned_collect.
    eapply (busy_owned _ (length (thr s)) u []). rewrite Ht. by apply list_lookup_middle. }
  change (run s (o :: replicate n (Step (length (thr s))))) with (run (step s o) (replicate n (Step (length (thr s))))) in Hb. rewrite Es in Hb.
  destruct n as [|n].
  { cbn in Hb. unfold between in Hb. rewrite Hl in Hb. apply (f_equal length) in Hb. rewrite app_length in Hb. destruct k; [by apply elem_of_nil in He|cbn in Hb; lia]. }
  change (run (api o s) (replicate (S n) (Step (length (thr s))))) with (run (step (api o s) (Step (length (thr s)))) (replicate n (Step (length (thr s))))) in Hb.
  assert (step (api o s) (Step (length (thr s))) = collect (set_thr (<[length (thr s) := []]> (thr s1)) s1)) as Es2.
  { unfold step, do_step. rewrite Ht, list_lookup_middle by done. by rewrite E. }
  rewrite Es2 in Hb.
  edestruct (nop_steps (collect (set_thr (<[length (thr s) := []]> (thr s1)) s1)) (length (thr s)) n) as (k2 & E2 & H2).
  { rewrite collect_thr. prj. rewrite Ht1, Ht. apply list_lookup_insert. rewrite app_length. cbn. lia. }
  destruct (collect_log (set_thr (<[length (thr s) := []]> (thr s1)) s1)) as (k1 & E1 & H1). unfold between in Hb. rewrite E2, E1 in Hb. change (log (set_thr ?a ?b)) with (log b) in Hb. rewrite Hl1 in Hb.
  assert (k = k2 ++ k1 ++ [e0]) as ->. { apply (app_inv_tail (log s)). rewrite <- Hb. by rewrite <- !app_assoc. }
  apply elem_of_app in He as [He|[He|He]%elem_of_app]; [by right; apply H2|by right; apply H1|]. left. by apply elem_of_list_singleton in He.
Qed.
(** ** Receive futures *)
Lemma recv_woken s r h o : reach s → hols s !! r = Some h → h_st h = HRecvWait o → ¬ idle s r → woken s (h_wk h).
Proof.
  intros Hr Hh Hs Hi. destruct h as [b x k w]. cbn in *. subst x. destruct (reach_wr s Hr _ _ _ _ _ Hh) as (y & Hy & [Hp|[_ ?]]); [|done].
  destruct Hi. destruct y as [rx [ww| | |]]; try done. exists (HO b (HRecvWait o) k w), o, rx, ww. done.
Qed.
Lemma recv_semantic s r h o a : reach s → hols s !! r = Some h → h_st h = HRecvWait o → receive_resolves_to s r a → woken s (h_wk h).
Proof.
  intros Hr Hh Hs [n Hn]. destruct h as [b x k w]. cbn in *. subst x. destruct (reach_wr s Hr _ _ _ _ _ Hh) as (y & Hy & [Hp|[_ ?]]); [|done]. exfalso.
  destruct y as [rx [ww| | |]]; try done.
  assert (api (APollRecv r) s = call [UPollOne r o] (set_nwk (S (nwk s)) (set_hols (<[r := HO b HRecvBusy k (nwk s)]> (hols s)) s))) as Ea by (cbn [api]; by rewrite Hh).
  eapply (one_call s (APollRecv r) (UPollOne r o) _ (EvRecvPending r)) in Hn; [destruct Hn as [?|(? & ? & ?)]; done|by rewrite Ea|by rewrite Ea|done|..].
  - rewrite Ea. cbn [exec]. prj. rewrite list_lookup_insert by (by eapply lookup_lt_Some). unfold exec_poll_one. prj. rewrite Hy. reflexivity.
  - prj. by autorewrite with fr_log.
  - prj. rewrite Ea. by autorewrite with fr_thr.
Qed.
Lemma recv_fresh s r h : reach s → hols s !! r = Some h → (h_st h = HRecvNew ∨ ∃ o, h_st h = HRecvWait o) →
  ∃ h', hols (step s (APollRecv r)) !! r = Some h' ∧ h_wk h' = nwk s ∧ ¬ woken (step s (APollRecv r)) (h_wk h').
Proof.
  intros Hr Hh Hs. destruct h as [b x k w]. cbn in Hs.
  assert (∃ u, api (APollRecv r) s = call [u] (set_nwk (S (nwk s)) (set_hols (<[r := HO b HRecvBusy k (nwk s)]> (hols s)) s))) as [u Ea].
  { cbn [api]. rewrite Hh. destruct Hs as [-> |[o ->]]; eauto. }
  assert (step s (APollRecv r) = api (APollRecv r) s) as ->.
  { unfold step. apply owned_collect. eapply (owned_hol _ r (HO b HRecvBusy k (nwk s))); [|done]. rewrite Ea. prj. apply list_lookup_insert. by eapply lookup_lt_Some. }
  rewrite Ea. prj. rewrite list_lookup_insert by (by eapply lookup_lt_Some). eexists. split_and!; [done|done|]. unfold woken. prj. by apply nwk_fresh.
Qed.

(** ** Send futures *)
Lemma send_woken s f x : reach s → sfs s !! f = Some x → send_pending x → ¬ send_waits s x → woken s (sf_wk x).
Proof.
  intros Hr Hf [_ Hp] Hn. pose proof (reach_wsend s Hr _ _ Hf) as HG. unfold sgood in HG. unfold send_waits in Hn. unfold woken.
  destruct Hp as [[c Hc]|[Hs [m Hm]]].
  - rewrite Hc in *. destruct (sf_mode x); destruct HG as ([a z] & Hy & [Hp|[_ ?]]); try done; destruct Hn; destruct z as [ww mm| |]; try done; eauto.
  - rewrite Hs, Hm in *. destruct HG as ([a z] & Hy & [Hp|[_ ?]]); try done; destruct Hn; destruct z as [ww| | |]; try done; eauto.
Qed.
Lemma send_semantic s f x o : reach s → sfs s !! f = Some x → send_pending x → resolves_to s f o → o ≠ OPending → woken s (sf_wk x).
Proof.
  intros Hr Hf Hp [n Hn] Ho. destruct (decide (sf_wk x ∈ wakes s)) as [|Hw]; [done|]. exfalso.
  assert (send_waits s x) as HW.
  { pose proof (reach_wsend s Hr _ _ Hf) as HG. unfold sgood in HG. unfold send_waits. destruct Hp as [_ [[c Hc]|[Hs [m Hm]]]].
    - rewrite Hc in *. destruct (sf_mode x); destruct HG as ([a z] & Hy & [Hp|[_ ?]]); try done; destruct z as [ww mm| |]; try done; eauto.
    - rewrite Hs, Hm in *. destruct HG as ([a z] & Hy & [Hp|[_ ?]]); try done; destruct z as [ww| | |]; try done; eauto. }
  destruct x as [st md lv w]. destruct Hp as [Hl Hp]. cbn in Hl, Hp, HW. subst lv.
  destruct Hp as [[c ->]|[-> [m ->]]].
  - destruct md; destruct HW as (a & ww & mm & HW).
    1,2: assert (api (APollSend f) s = call [USendCell1 f c] (set_nwk (S (nwk s)) (put_sf f (SF SBusy _ true (nwk s)) s))) as Ea by (cbn [api]; by rewrite Hf);
      eapply (one_call s (APollSend f) (USendCell1 f c) _ (EvSend f OPending)) in Hn; [destruct Hn as [?|(? & ? & ?)]; simplify_eq|by rewrite Ea|by rewrite Ea|done|..];
      [rewrite Ea; cbn [exec]; unfold put_sf; prj; rewrite list_lookup_insert by (by eapply lookup_lt_Some); unfold exec_send_cell1; prj; rewrite HW; reflexivity
      |unfold send_out; prj; by autorewrite with fr_log|unfold send_out; prj; rewrite Ea; by autorewrite with fr_thr].
    assert (api (APollSend f) s = call [USendCellA f c] (set_nwk (S (nwk s)) (put_sf f (SF SBusy MBroadcast true (nwk s)) s))) as Ea by (cbn [api]; by rewrite Hf).
    eapply (one_call s (APollSend f) (USendCellA f c) _ (EvSend f OPending)) in Hn; [destruct Hn as [?|(? & ? & ?)]; simplify_eq|by rewrite Ea|by rewrite Ea|done|..];
      [rewrite Ea; cbn [exec]; unfold put_sf; prj; rewrite list_lookup_insert by (by eapply lookup_lt_Some); unfold exec_send_cellA; prj; rewrite HW; reflexivity
      |unfold send_out; prj; by autorewrite with fr_log|unfold send_out; prj; rewrite Ea; by autorewrite with fr_thr].
  - destruct HW as (a & ww & HW).
    assert (api (APollSend f) s = call [UReplyPoll f m] (set_nwk (S (nwk s)) (put_sf f (SF SBusy (MReturn m) true (nwk s)) s))) as Ea by (cbn [api]; by rewrite Hf).
    eapply (one_call s (APollSend f) (UReplyPoll f m) _ (EvSend f OPending)) in Hn; [destruct Hn as [?|(? & ? & ?)]; simplify_eq|by rewrite Ea|by rewrite Ea|done|..];
      [rewrite Ea; cbn [exec]; unfold put_sf; prj; rewrite list_lookup_insert by (by eapply lookup_lt_Some); unfold poll_reply; prj; rewrite HW; reflexivity
      |unfold send_out; prj; by autorewrite with fr_log|unfold send_out; prj; rewrite Ea; by autorewrite with fr_thr].
Qed.
Lemma send_fresh s f x : reach s → sfs s !! f = Some x → sf_live x = true → (∃ p k, sf_st x = SNew p k) ∨ send_pending x →
  ∃ x', sfs (step s (APollSend f)) !! f = Some x' ∧ sf_wk x' = nwk s ∧ ¬ woken (step s (APollSend f)) (sf_wk x').
Proof.
  intros Hr Hf Hl Hp. destruct x as [st md lv w]. unfold send_pending in Hp. cbn in *. subst lv.
  assert (∃ u, api (APollSend f) s = call [u] (set_nwk (S (nwk s)) (put_sf f (SF SBusy md true (nwk s)) s))) as [u Ea].
  { cbn [api]. rewrite Hf. destruct Hp as [(p & k & ->)|[_ [[c ->]|[-> [m ->]]]]]; eauto. destruct md; eauto. }
  assert (step s (APollSend f) = api (APollSend f) s) as ->.
  { unfold step. apply owned_collect. eapply (busy_owned _ (length (thr s)) u []). rewrite Ea. unfold put_sf. prj. by apply list_lookup_middle. }
  rewrite Ea. unfold put_sf. prj. rewrite list_lookup_insert by (by eapply lookup_lt_Some). eexists. split_and!; [done|done|]. unfold woken. prj. by apply nwk_fresh.
Qed.

(** ** Detached receivers *)
Lemma rcv_woken s i x : reach s → receiver_pending s i x → ¬ receiver_waits s x → woken s (rc_wk x).
Proof.
  intros Hr (Hx & Hl & Hs & He) Hn. destruct x as [m st l w]. cbn in *. subst st. destruct (reach_wx s Hr _ _ _ _ Hx He) as ([a z] & Hy & [Hp|[_ ?]]); [|done].
  destruct Hn. unfold receiver_waits. cbn. destruct z as [ww| | |]; try done; eauto.
Qed.
Lemma rcv_semantic s i x o : reach s → receiver_pending s i x → receiver_resolves_to s i o → o ≠ OPending → woken s (rc_wk x).
Proof.
  intros Hr (Hx & Hl & Hs & He) [n Hn] Ho. destruct x as [m st l w]. cbn in *. subst st l. destruct (reach_wx s Hr _ _ _ _ Hx He) as ([a z] & Hy & [Hp|[_ ?]]); [|done].
  exfalso. destruct z as [ww| | |]; try done.
  assert (api (APollRcv i) s = call [URcvPoll i] (set_nwk (S (nwk s)) (set_rcvs (<[i := RC m XBusy true (nwk s)]> (rcvs s)) s))) as Ea by (cbn [api]; by rewrite Hx).
  eapply (one_call s (APollRcv i) (URcvPoll i) _ (EvReceiver i OPending)) in Hn; [destruct Hn as [?|(? & ? & ?)]; simplify_eq|by rewrite Ea|by rewrite Ea|done|..].
  - rewrite Ea. cbn [exec]. prj. rewrite list_lookup_insert by (by eapply lookup_lt_Some). cbn [rc_m rc_wk rc_live]. unfold poll_reply. prj. rewrite Hy. reflexivity.
  - prj. by autorewrite with fr_log.
  - prj. rewrite Ea. by autorewrite with fr_thr.
Qed.

(** ** Join handles *)
Lemma newly_one s s' e : log s' = e :: log s → newly s s' e.
Proof. intros H. exists [e]. split; [done|]. by left. Qed.
Lemma step_evs s o e : newly s (step s o) e → (∃ m y, e = EvDrop m y) ∨ newly s (match o with Step t => do_step t s | _ => api o s end) e.
Proof.
  intros (k & Hb & He). unfold step in Hb. set (x := match o with Step t => do_step t s | _ => api o s end) in *.
  destruct (collect_log x) as (k1 & E1 & H1). unfold between in Hb. rewrite E1 in Hb.
  assert (logx s x) as [k2 E2]. { destruct o; try apply api_logx. unfold x, do_step. destruct (thr s !! t) as [[|u rest]|]; try (by exists []). destruct (exec u s) as [s1 new] eqn:E. by apply exec_logx in E. }
  rewrite E2, app_assoc in Hb. apply app_inv_tail in Hb as <-. apply elem_of_app in He as [He|He]; [left; by apply H1|]. right. by exists k2.
Qed.
Lemma api_new_ev s o e : newly s (api o s) e → log (api o s) = e :: log s ∧ ev_api o e.
Proof.
  intros (k & Hb & He). unfold between in Hb. destruct (api_evs o s) as [E|(e' & E & Hs)].
  - rewrite E in Hb. apply (f_equal length) in Hb. rewrite app_length in Hb. destruct k; [by apply elem_of_nil in He|cbn in Hb; lia].
  - rewrite E in Hb. change (e' :: log s) with ([e'] ++ log s) in Hb. apply app_inv_tail in Hb as <-. apply elem_of_list_singleton in He as ->. done.
Qed.
Lemma join_only s o j : reach s → newly s (step s o) (EvJoin j true) → ¬ is_conn s.
Proof.
  intros Hr [(? & ? & [=])|Hn]%step_evs [C1 C2].
  assert (o = APollJoin j) as ->.
  { destruct o; try (by apply api_new_ev in Hn as [_ ?]). - exfalso. destruct Hn as (k & Hb & He). unfold do_step in Hb. destruct (thr s !! t) as [[|u rest]|].
    + unfold between in Hb. apply (f_equal length) in Hb. rewrite app_length in Hb. destruct k; [by apply elem_of_nil in He|cbn in Hb; lia].
    + destruct (exec u s) as [s1 new] eqn:E. unfold between in Hb. change (log s1 = k ++ log s) in Hb. destruct (exec_evs _ _ _ _ E) as (k2 & Ek & Hk). rewrite Ek in Hb. apply app_inv_tail in Hb as <-. by apply Hk in He.
    + unfold between in Hb. apply (f_equal length) in Hb. rewrite app_length in Hb. destruct k; [by apply elem_of_nil in He|cbn in Hb; lia].
  }
  apply api_new_ev in Hn as [El _]. destruct (reach_jd s Hr) as [J1 J2]. revert El. cbn [api].
  destruct (jhs s !! j) as [[l k w]|] eqn:Ej; [|intros El%(f_equal length); cbn in El; lia]. destruct k; [|intros El%(f_equal length); cbn in El; lia].
  destruct l as [l|]; [|destruct (J1 _ _ Ej eq_refl); lia].
  destruct (lsts s !! l) as [[[] ww]|] eqn:Es; try done. { specialize (J2 _ _ Es eq_refl). lia. }
  intros _. pose proof (reach_ju s Hr l) as HU. pose proof (sum_lookup (j_l l) _ _ _ Ej) as HF. unfold j_l in HF at 1. cbn in HF. unfold isn in HF. rewrite Nat.eqb_refl in HF.
  unfold lt1 in HU. apply lookup_ge_None in Es. destruct (Nat.ltb_spec l (length (lsts s))); lia.
Qed.
Definition InvJT (s : state) : Prop := ∀ j x, jhs s !! j = Some x → jh_l x = None → EvJoin j false ∈ log s → EvJoin j true ∈ log s.
Lemma reach_jt s : reach s → InvJT s.
Proof.
  revert s. apply reach_inv; unfold InvJT.
  - intros c j x. cbn. by rewrite lookup_nil.
  - intros s o Hr I j x Hj Hx He.
    assert (o = APollJoin j ∨ o ≠ APollJoin j) as [-> |Hn]. { destruct o; try (by right). destruct (decide (j0 = j)) as [->|]; [by left|right; congruence]. }
    + revert Hj He. cbn [api]. destruct (jhs s !! j) as [[l [] w]|] eqn:Ej; [|intros Hj; rewrite Ej in Hj; simplify_eq; by eapply I|intros Hj; congruence].
      destruct l as [l|]; [destruct (lsts s !! l) as [[[] ?]|]|]; prj; intros Hj He; try (by left).
      rewrite list_lookup_insert in Hj by (by eapply lookup_lt_Some). by simplify_eq.
    + assert (EvJoin j false ∈ log s) as He'. { destruct (api_evs o s) as [El|(e & El & Hs)]; rewrite El in He; [done|]. apply elem_of_cons in He as [<-|He]; done. }
      assert (∀ e, e ∈ log s → e ∈ log (api o s)) as Hm. { intros e H. destruct (api_evs o s) as [El|(e' & El & Hs)]; rewrite El; [done|by right]. }
      assert (∃ y, jhs s !! j = Some y ∧ jh_l y = jh_l x) as (y & Hy & El).
      { revert Hj. destruct o; cbn [api]; repeat (dgoal; try by eauto); cbv zeta; unfold add_addr; repeat dgoal; repeat (progress (prj; autorewrite with fr_jhs)); eauto.
        all: rewrite ?list_insert_insert; intros [(-> & <- & _)|[_ H]]%list_lookup_insert_Some; eauto. all: congruence. }
      apply Hm. eapply I; [exact Hy| |exact He']. congruence.
  - intros s t u rest s1 new Hr I Ht E Hthr j x Hj Hx He. prj. revert He Hj. prj. intros He Hj. destruct (exec_evs _ _ _ _ E) as (k0 & Ek & Hk).
    assert (EvJoin j false ∈ log s) as He'. { rewrite Ek in He. apply elem_of_app in He as [He|He]; [|done]. by apply Hk in He. }
    rewrite Ek. apply elem_of_app. right. destruct (exec_jhs _ _ _ _ _ _ E Hj) as [Hj'|(-> & _)]; [by eapply I|]. destruct (reach_wj s Hr) as [W _]. apply W in He'. lia.
  - intros s Hr I Ho j x. autorewrite with fr_jhs. intros Hj Hx He. destruct (free_evs s) as (k0 & Ek & Hk). rewrite Ek. apply elem_of_app. right. eapply I; [done..|].
    rewrite Ek in He. apply elem_of_app in He as [He|He]; [|done]. by apply Hk in He as (? & ? & [=] & _).
Qed.
Lemma join_ends s j x : reach s → rxc s = 0 → msum g_rs s = 0 → jhs s !! j = Some x →
  (jh_live x = true → newly s (step s (APollJoin j)) (EvJoin j true)) ∧ (join_pending s j → woken s (jh_wk x)).
Proof.
  intros Hr Hx Hq Hj. destruct x as [l k w]. cbn [jh_live jh_wk].
  assert (∀ l0, l = Some l0 → ∃ ww, lsts s !! l0 = Some (LS true ww)) as HL.
  { intros l0 ->. assert (at_ l_n (lsts s) l0 = 1) as HA.
    { apply (reach_jn s Hr); [|done..]. pose proof (sum_lookup (j_l l0) _ _ _ Hj) as HF. unfold j_l in HF at 1. cbn in HF. unfold isn in HF. rewrite Nat.eqb_refl in HF. lia. }
    unfold at_ in HA. destruct (lsts s !! l0) as [[[] ww]|]; [by eexists|done|done]. }
  split.
  - intros ->. assert (newly s (api (APollJoin j) s) (EvJoin j true)) as Hn.
    { apply newly_one. cbn [api]. rewrite Hj. destruct l as [l|]; [destruct (HL l eq_refl) as [ww ->]|]; done. }
    destruct Hn as (k & Hb & He). unfold step. destruct (collect_log (api (APollJoin j) s)) as (k1 & E1 & _). exists (k1 ++ k). split; [|apply elem_of_app; by right].
    unfold between in *. by rewrite E1, Hb, app_assoc.
  - intros [He Hne]. destruct l as [l|].
    + destruct (reach_wj s Hr) as [_ W]. destruct (W _ _ _ _ Hj He) as (y & Hy & [Hp|[_ ?]]); [|done]. destruct (HL l eq_refl) as [ww Hl]. by simplify_eq.
    + destruct Hne. by eapply (reach_jt s Hr).
Qed.
Lemma join_fresh s j x : reach s → jhs s !! j = Some x → jh_live x = true →
  ∃ x', jhs (step s (APollJoin j)) !! j = Some x' ∧ jh_wk x' = nwk s ∧ ¬ woken (api (APollJoin j) s) (jh_wk x').
Proof.
  intros Hr Hj Hl. destruct x as [l k w]. cbn in Hl. subst k. 
  assert (∃ x', jhs (api (APollJoin j) s) !! j = Some x' ∧ jh_wk x' = nwk s) as (x' & Hx & Hw).
  { cbn [api]. rewrite Hj. destruct l as [l|]; [destruct (lsts s !! l) as [[[] ?]|]|]; prj; rewrite ?list_insert_insert, list_lookup_insert by (by eapply lookup_lt_Some); by eexists. }
  exists x'. split; [|split; [done|]].
  - unfold step, collect. destruct (chan_owned _); [done|]. by autorewrite with fr_jhs.
  - rewrite Hw. unfold woken. assert (wakes (api (APollJoin j) s) = wakes s) as ->; [|by apply nwk_fresh].
    cbn [api]. rewrite Hj. destruct l as [l|]; [destruct (lsts s !! l) as [[[] ?]|]|]; done.
Qed.
(** A join handle asked for when the channel is disconnected is resolved. *)
Lemma join_late s a x : reach s → ¬ is_conn s → addrs s !! a = Some x → ad_live x = true →
  newly s (run s (AJoin a :: replicate 2 (Step (length (thr s))) ++ [APollJoin (length (jhs s))])) (EvJoin (length (jhs s)) true).
Proof.
  intros Hr Hc Ha Hl. destruct x as [q tk lv]. cbn in Hl. subst lv.
  assert (∀ z, addrs z = addrs s → collect z = z) as HC. { intros z Hz. apply owned_collect. eapply (owned_addr z a); [by rewrite Hz|done]. }
  assert (step s (AJoin a) = call [UJoinLd1 (length (lsts s))] (set_lsts (lsts s ++ [LS false None]) s)) as E0. { unfold step. cbn [api]. rewrite Ha. by apply HC. }
  set (s0 := call [UJoinLd1 (length (lsts s))] (set_lsts (lsts s ++ [LS false None]) s)) in E0.
  change (replicate 2 (Step (length (thr s))) ++ [APollJoin (length (jhs s))]) with [Step (length (thr s)); Step (length (thr s)); APollJoin (length (jhs s))].
  assert (thr s0 !! length (thr s) = Some [UJoinLd1 (length (lsts s))]) as H0 by (by apply list_lookup_middle).
  assert (∃ s2, run s [AJoin a; Step (length (thr s)); Step (length (thr s))] = s2 ∧ log s2 = log s ∧ jhs s2 = jhs s ++ [JH None true 0] ∧ addrs s2 = addrs s) as (s2 & E2 & L2 & J2 & A2).
  { change (run s [AJoin a; Step (length (thr s)); Step (length (thr s))]) with (step (step (step s (AJoin a)) (Step (length (thr s)))) (Step (length (thr s)))). rewrite E0.
    destruct (Nat.eqb_spec (rxc s) 0) as [Hx|Hx].
    - assert (step s0 (Step (length (thr s))) = set_thr (<[length (thr s) := []]> (thr s0)) (set_jhs (jhs s ++ [JH None true 0]) s0)) as ->.
      { unfold step, do_step. rewrite H0. cbn [exec]. change (rxc s0) with (rxc s). rewrite Hx. cbn [Nat.eqb]. by apply HC. }
      eexists. split; [reflexivity|]. unfold step, do_step. prj. rewrite list_lookup_insert by (by eapply lookup_lt_Some). by rewrite HC.
    - assert (txc s = 0) as Ht. { unfold is_conn in Hc. lia. }
      assert (step s0 (Step (length (thr s))) = set_thr (<[length (thr s) := [UJoinLd2 (length (lsts s))]]> (thr s0)) s0) as ->.
      { unfold step, do_step. rewrite H0. cbn [exec]. change (rxc s0) with (rxc s). destruct (Nat.eqb_spec (rxc s) 0); [done|]. by apply HC. }
      eexists. split; [reflexivity|]. unfold step, do_step. prj. rewrite list_lookup_insert by (by eapply lookup_lt_Some). cbn [exec]. prj. change (txc s0) with (txc s). rewrite Ht. cbn [Nat.eqb]. by rewrite HC. }
  change (run s [AJoin a; Step (length (thr s)); Step (length (thr s)); APollJoin (length (jhs s))]) with (step (run s [AJoin a; Step (length (thr s)); Step (length (thr s))]) (APollJoin (length (jhs s)))).
  rewrite E2. apply newly_one. unfold step. rewrite HC; cbn [api]; rewrite J2, list_lookup_middle by done; prj; [by rewrite L2|done].
Qed.
