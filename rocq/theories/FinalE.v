(** Proofs about the fate of messages: accepted ones, failed and cancelled sends, replies. *)
From stdpp Require Import base numbers list list_numbers.
From Coq Require Import Lia.
From Verif Require Import Prio Heap State Model HeapProofs Frame Lib InvBusy InvCount Effects InvMsg InvMsg2
  InvHeap InvOne InvOne2 InvDisc InvWait InvWait2 InvFut InvCell WaitSpec InvWs InvBlk Mono InvSend InvErr
  Events Wake InvSmall InvRep InvPoll Spec Bridge FinalA FinalB.

Lemma sum_two {A} (g : A → nat) l i j x y : l !! i = Some x → l !! j = Some y → i ≠ j → g x + g y ≤ Σ g l.
Proof.
  revert i j; induction l as [|a l IH]; intros i j Hi Hj Hn; [done|]. cbn.
  destruct i as [|i], j as [|j]; cbn in Hi, Hj; simplify_eq.
  - apply (sum_lookup g) in Hj. lia.
  - apply (sum_lookup g) in Hi. lia.
  - assert (i ≠ j) as Hn' by congruence. specialize (IH i j Hi Hj Hn'). lia.
Qed.

(** ** Who owns the reply of message [m] *)
Lemma message_of_is m x : message_of x = Some m → f_is m x = 1 ∧ fm x = S m.
Proof.
  unfold message_of, f_is, fm. destruct (sf_mode x) as [k|[k|]|]; intros [= ->]; unfold isn; by rewrite Nat.eqb_refl.
Qed.
Lemma fm_is m x : fm x = S m → f_is m x = 1.
Proof. unfold f_is, fm. destruct (sf_mode x) as [k|[k|]|]; intros [= ->]; unfold isn; by rewrite Nat.eqb_refl. Qed.
Lemma x_is_self rc : x_is (rc_m rc) rc = 1.
Proof. unfold x_is, isn. by rewrite Nat.eqb_refl. Qed.
Lemma owner_exists s f x m : reach s → sfs s !! f = Some x → message_of x = Some m → m < length (reps s).
Proof.
  intros Hr Hf [H _]%message_of_is. pose proof (reach_uniq s Hr m) as HU. apply (sum_lookup (f_is m)) in Hf.
  unfold lt1 in HU. destruct (Nat.ltb_spec m (length (reps s))); lia.
Qed.
Lemma rcv_exists s x rc : reach s → rcvs s !! x = Some rc → rc_m rc < length (reps s).
Proof.
  intros Hr Hx. pose proof (reach_uniq s Hr (rc_m rc)) as HU. apply (sum_lookup (x_is (rc_m rc))) in Hx. rewrite x_is_self in Hx.
  unfold lt1 in HU. destruct (Nat.ltb_spec (rc_m rc) (length (reps s))); lia.
Qed.
Lemma lt1_le i n : lt1 i n ≤ 1.
Proof. unfold lt1. case_match; lia. Qed.
Lemma owner_unique s f g x y m : reach s → sfs s !! f = Some x → sfs s !! g = Some y →
  f_is m x = 1 → f_is m y = 1 → f = g.
Proof.
  intros Hr Hf Hg Hx Hy. destruct (decide (f = g)); [done|]. pose proof (sum_two (f_is m) _ _ _ _ _ Hf Hg ltac:(done)).
  pose proof (reach_uniq s Hr m) as HU. pose proof (lt1_le m (length (reps s))). lia.
Qed.
Lemma rcv_unique s f g x y : reach s → rcvs s !! f = Some x → rcvs s !! g = Some y → rc_m x = rc_m y → f = g.
Proof.
  intros Hr Hf Hg Hx. destruct (decide (f = g)); [done|]. pose proof (sum_two (x_is (rc_m x)) _ _ _ _ _ Hf Hg ltac:(done)) as H.
  rewrite x_is_self, Hx, x_is_self in H. pose proof (reach_uniq s Hr (rc_m y)) as HU. pose proof (lt1_le (rc_m y) (length (reps s))). lia.
Qed.
Lemma owner_rcv s f g x y m : reach s → sfs s !! f = Some x → rcvs s !! g = Some y → f_is m x = 1 → rc_m y ≠ m.
Proof.
  intros Hr Hf Hg Hx <-. apply (sum_lookup (f_is (rc_m y))) in Hf. apply (sum_lookup (x_is (rc_m y))) in Hg. rewrite x_is_self in Hg.
  pose proof (reach_uniq s Hr (rc_m y)) as HU. pose proof (lt1_le (rc_m y) (length (reps s))). lia.
Qed.

(** ** Accepted messages *)
Definition any_why (y : why) : bool := true.
Lemma received_accepted s m : reach s → times (received m) s ≤ times (accepted m) s.
Proof.
  intros Hr. unfold times. rewrite (cnt_sum (e_recv m) (received m)), (cnt_sum (e_acc m) (accepted m)) by b2n.
  pose proof (reach_B s Hr m) as HB.
  assert (Σ (e_recv m) (log s) ≤ Σ (e_mid m) (log s)) by (apply sum_le; intros []; cbn; lia). lia.
Qed.
Lemma accepted_lt s m : reach s → 0 < times (accepted m) s → m < length (reps s).
Proof.
  intros Hr. unfold times. rewrite (cnt_sum (e_acc m) (accepted m)) by b2n. pose proof (reach_A s Hr m) as HA. intros H.
  assert (Σ (e_acc m) (log s) ≤ Σ (e_pre m) (log s)) by (apply sum_le; intros []; cbn; lia).
  unfold lt1 in HA. destruct (Nat.ltb_spec m (length (reps s))); lia.
Qed.
(** An accepted message is in exactly one place or has exactly one fate. *)
Lemma accounted s m : reach s → 0 < times (accepted m) s →
  in_queue m s + in_flight m s + in_requeue m s + held m s + running m s
  + in_drop before_receive m s + in_drop by_program m s
  + times (dropped before_receive m) s + times (dropped by_program m) s + times (finished m) s = 1
  ∧ times (dropped before_accept m) s = 0.
Proof.
  intros Hr Ha. destruct (somewhere s m Hr (accepted_lt s m Hr Ha)) as [H1 H2]. lia.
Qed.
Lemma in_flight_owner s m : reach s → 0 < in_flight m s →
  (∃ r h o k, hols s !! r = Some h ∧ h_st h = HRecvWait o ∧ ones s !! o = Some (ON true (OFull (CNewMsg k))) ∧ um_id k = m) ∨
  0 < todo (λ u, match u with UPollOne _ _ | UOneDrop _ => true | _ => false end) s.
Proof.
  intros Hr (x & [o Ho]%elem_of_list_lookup & Hx)%cnt_pos_inv. destruct x as [rx st]. cbn in Hx.
  destruct st as [|[k| |]| |]; try done. apply Nat.eqb_eq in Hx.
  assert (rx = true) as ->.
  { pose proof (reach_ff s Hr) as HF. unfold FF in HF. rewrite Forall_fmap, Forall_forall in HF.
    apply elem_of_list_lookup_2 in Ho. specialize (HF _ Ho). by destruct rx. }
  destruct (reach_own s Hr o) as [HO _]. rewrite (at_some _ _ _ _ Ho) in HO. cbn in HO.
  destruct (decide (0 < Σ (h_wait o) (hols s))) as [Hp|Hp].
  - left. apply sum_pos in Hp as (h & [r Hh]%elem_of_list_lookup & Hw). unfold h_wait in Hw.
    destruct (h_st h) as [| | |o'| | | |] eqn:Hst; try lia. unfold isn in Hw. destruct (Nat.eqb_spec o' o) as [->|]; [|lia].
    exists r, h, o, k. done.
  - right. assert (0 < msum (g_one o) s) as Hp2 by lia. apply msum_pos in Hp2 as (t & p & u & Ht & Hu & Hg).
    unfold todo. apply (cnt_pos _ _ u); [|by destruct u; cbn in *; try lia].
    apply elem_of_list_In, in_concat. exists p. rewrite <-!elem_of_list_In. split; [by eapply elem_of_list_lookup_2|done].
Qed.

(** ** Messages that were dropped before they were accepted *)
Lemma ndrop_later d m s s' : reach s → later s s' → ndrop d m s ≤ ndrop d m s'.
Proof.
  intros Hr Hl. apply (later_inv (λ x, ndrop d m s ≤ ndrop d m x)) with (s := s); [..|done|done|done].
  - intros. etrans; [done|]. apply api_ndrop.
  - intros. etrans; [done|]. by eapply exec_ndrop.
  - intros. etrans; [done|]. apply free_ndrop.
Qed.
Lemma log_later s s' : later s s' → logx s s'.
Proof. intros [l ->]. apply run_logx. Qed.
Lemma spent s m : reach s → 0 < ndrop d_pre m s →
  times (accepted m) s = 0 ∧ times (received m) s = 0 ∧ times (handled m) s = 0.
Proof.
  intros Hr Hn. pose proof (received_accepted s m Hr) as H1. destruct (once s m Hr) as (_ & H2 & _).
  assert (times (accepted m) s = 0); [|lia].
  destruct (decide (0 < times (accepted m) s)) as [Ha|]; [|lia].
  destruct (somewhere s m Hr (accepted_lt s m Hr Ha)) as [H3 H4].
  rewrite (in_drop_sum d_pre before_accept) in H3 by (by intros []). rewrite (dropped_sum d_pre before_accept) in H3 by (by intros []).
  unfold ndrop in Hn. lia.
Qed.
Lemma failed_spent s f x m : reach s → happened (EvSend f OErrDisconnected) s → sfs s !! f = Some x → message_of x = Some m →
  0 < ndrop d_pre m s.
Proof.
  intros Hr He Hf [_ Hm]%message_of_is. destruct (reach_err s Hr f) as [_ H].
  - pose proof (sum_elem (e_serr f) _ _ He) as H. cbn in H. unfold isn in H. rewrite Nat.eqb_refl in H. lia.
  - apply H. by rewrite (at_some _ _ _ _ Hf).
Qed.
(** Who can still hold message [m] before it is accepted. *)
Lemma cancelled_spent s f x m : reach s → sfs s !! f = Some x → message_of x = Some m → sf_live x = false →
  times (accepted m) s = 0 → todo (λ u, match u with UCellDrop1 _ => true | _ => false end) s = 0 → 0 < ndrop d_pre m s.
Proof.
  intros Hr Hf Hm Hl Ha Hd. pose proof (owner_exists s f x m Hr Hf Hm) as Hlt. apply message_of_is in Hm as [Hi Hm].
  assert (sf_st x = SFin) as Hfin.
  { pose proof (reach_dead s Hr) as HD. pose proof (sum_lookup f_dead _ _ _ Hf) as H. rewrite HD in H. unfold f_dead in H. rewrite Hl in H. destruct (sf_st x); try lia; done. }
  assert (∀ g, at_ fm (sfs s) g = S m → g = f) as Hown.
  { intros g Hg. destruct (at_pos fm (sfs s) g) as (y & Hy & Hp); [lia|]. rewrite (at_some _ _ _ _ Hy) in Hg.
    eapply owner_unique; eauto using fm_is. }
  assert (at_ isbusy (sfs s) f = 0) as Hb by (rewrite (at_some _ _ _ _ Hf); unfold isbusy; by rewrite Hfin).
  destruct (somewhere s m Hr Hlt) as [H1 H2].
  rewrite (in_drop_sum d_pre before_accept) in H1 by (by intros []). rewrite (dropped_sum d_pre before_accept) in H1 by (by intros []).
  unfold ndrop. rewrite Ha in H2.
  assert (cnt (λ x0 : sfut, match sf_st x0 with SNew (PU k) _ => um_id k =? m | _ => false end) (sfs s) = 0) as E1.
  { apply cnt_zero. intros y [g Hg]%elem_of_list_lookup. destruct (sf_st y) as [[k|]| | | |] eqn:Hst; try done.
    destruct (Nat.eqb_spec (um_id k) m) as [Hk|]; [|done]. exfalso.
    destruct (reach_K s Hr g m) as (K & _). rewrite !(at_some _ _ _ _ Hg) in K. unfold f_um in K. rewrite Hst in K. unfold is, isn in K.
    rewrite Hk, Nat.eqb_refl in K. specialize (K ltac:(lia)).
    assert (g = f) as -> by (apply Hown; by rewrite (at_some _ _ _ _ Hg)). simplify_eq. congruence. }
  assert (todo (λ u : micro, match u with USendLd1 _ (PU k) _ | USendLd2 _ (PU k) _ | USendLock _ (PU k) _ => um_id k =? m | _ => false end) s = 0) as E2.
  { apply cnt_zero. intros u Hu.
    assert (∀ g, g_um g m u ≤ msum (g_um g m) s) as HS.
    { intros g. apply elem_of_list_In, in_concat in Hu as (p & Hp & Hu). rewrite <-!elem_of_list_In in *.
      pose proof (sum_elem (g_um g m) _ _ Hu). pose proof (sum_elem (Σ (g_um g m)) _ _ Hp). unfold msum. lia. }
    assert (∀ g, g_um g m u = 1 → False) as HF.
    { intros g Hg. specialize (HS g). destruct (reach_K s Hr g m) as (K & _). specialize (K ltac:(lia)). apply Hown in K as ->.
      pose proof (busyF_none (g_um f m) s f Hr Hb (g_um_le f m)). lia. }
    destruct u; try done; destruct p as [k'|]; try done; destruct (Nat.eqb_spec (um_id k') m) as [Hk|]; try done;
      exfalso; apply (HF f0); cbn; unfold is, isn; by rewrite Hk, !Nat.eqb_refl. }
  assert (blocked m s = 0) as E3.
  { apply cnt_zero. intros y [c Hc]%elem_of_list_lookup. destruct y as [[] [w k| |]]; try done.
    destruct (Nat.eqb_spec (um_id k) m) as [Hk|]; [|done]. exfalso.
    destruct (reach_blk s Hr) as [_ HB]. destruct (HB c) as [B _]. rewrite (at_some _ _ _ _ Hc) in B. cbn in B. specialize (B ltac:(lia)).
    destruct (reach_cell s Hr c) as [C _]. rewrite (at_some _ _ _ _ Hc) in C. cbn in C.
    destruct (decide (0 < Σ (f_c1 c) (sfs s))) as [Hp|Hp].
    - apply sum_pos in Hp as (y & [g Hg]%elem_of_list_lookup & Hp). destruct (reach_FC s Hr g c) as [_ FC]; [rewrite (at_some _ _ _ _ Hg); lia|].
      assert (g = f) as -> by (apply Hown; rewrite FC; congruence). simplify_eq. unfold f_c1 in Hp. rewrite Hfin in Hp. lia.
    - assert (0 < msum (g_c1 c) s) as Hp2 by lia. apply msum_pos in Hp2 as (t & p & u & Ht & Hu & Hg).
      assert (u ∈ concat (thr s)) as Hin.
      { apply elem_of_list_In, in_concat. exists p. rewrite <-!elem_of_list_In. split; [by eapply elem_of_list_lookup_2|done]. }
      destruct u; cbn in Hg; try lia.
      + unfold isn in Hg. destruct (Nat.eqb_spec c0 c) as [->|]; [|lia].
        assert (0 < msum (g_fc f0 c) s) as Hfc.
        { pose proof (sum_elem (g_fc f0 c) _ _ Hu) as H3. apply elem_of_list_lookup_2 in Ht. pose proof (sum_elem (Σ (g_fc f0 c)) _ _ Ht).
          cbn in H3. unfold isn in H3. rewrite !Nat.eqb_refl in H3. unfold msum. lia. }
        destruct (reach_FC s Hr f0 c) as [_ FC]; [lia|].
        assert (f0 = f) as -> by (apply Hown; rewrite FC; congruence).
        pose proof (busyF_none (g_fc f c) s f Hr Hb (g_fc_le f c)). lia.
      + pose proof (cnt_pos (λ u, match u with UCellDrop1 _ => true | _ => false end) _ _ Hin eq_refl) as H3. unfold todo in Hd. lia. }
  lia.
Qed.

(** ** The message of a future never changes *)
Lemma api_fm_fwd o s f m : at_ fm (sfs s) f = S m → at_ fm (sfs (api o s)) f = S m.
Proof.
  intros H. assert (f < length (sfs s)) as Hlt by (destruct (at_pos fm (sfs s) f) as (? & ? & ?); [lia|by eapply lookup_lt_Some]).
  destruct o; cbn [api]; repeat (dgoal; try done); cbv zeta; unfold add_addr; repeat dgoal;
    repeat (progress (prj; autorewrite with fr_sfs)); try done; sums; case_eqb; subst; ats; cbn in *; try done; lia.
Qed.
Lemma exec_fm_fwd u s s1 new f m : exec u s = (s1, new) → at_ fm (sfs s) f = S m →
  at_ fm (sfs s1) f = S m ∨
  (at_ fm (sfs s1) f = 0 ∧ ∃ x rc, EvSend f (OReceiver x) ∈ log s1 ∧ rcvs s1 !! x = Some rc ∧ rc_m rc = m).
Proof.
  intros E H. exec_cases u E; repeat (progress (prj; autorewrite with fr_sfs)); try (by left).
  all: try (left; sums; case_eqb; subst; ats; cbn in *; done).
  sums. case_eqb; subst; [|by left]. ats. right. split; [done|]. exists (length (rcvs s)), (RC n XIdle true 0).
  split; [by left|]. split; [rewrite lookup_app_r, Nat.sub_diag by done; done|].
  unfold fm in H. rewrite Em0 in H. cbn. congruence.
Qed.
Definition carries (f m : nat) (s : state) : Prop :=
  at_ fm (sfs s) f = S m ∨ ∃ x rc, EvSend f (OReceiver x) ∈ log s ∧ rcvs s !! x = Some rc ∧ rc_m rc = m.
Lemma carries_later f m s s' : reach s → later s s' → carries f m s → carries f m s'.
Proof.
  apply (later_inv (carries f m)).
  - intros x o Hr [H|(y & rc & H1 & H2 & H3)]; [left; by apply api_fm_fwd|]. right.
    destruct (api_rcv_fwd o x y rc H2) as (rc' & ? & ?). exists y, rc'. split; [|split; [done|congruence]].
    eapply logx_in, H1. apply api_logx.
  - intros x t u rest s1 new Hr [H|(y & rc & H1 & H2 & H3)] Ht E Hthr.
    + destruct (exec_fm_fwd _ _ _ _ _ _ E H) as [?|[_ ?]]; [by left|by right].
    + right. destruct (exec_rcv_fwd _ _ _ _ _ _ E H2) as (rc' & ? & ?). exists y, rc'. split; [|split; [done|congruence]].
      prj. eapply logx_in, H1. by eapply exec_logx.
  - intros x Hr [H|(y & rc & H1 & H2 & H3)] _.
    + left. by autorewrite with fr_sfs.
    + right. autorewrite with fr_rcvs. exists y, rc. split; [|done]. eapply logx_in, H1. apply free_logx.
Qed.

(** ** Running one call *)
Lemma owned_busy s t u p : thr s !! t = Some (u :: p) → collect s = s.
Proof.
  intros Ht. unfold collect, chan_owned. assert (existsb (λ p : list micro, match p with [] => false | _ => true end) (thr s) = true) as ->.
  { apply existsb_exists. exists (u :: p). split; [|done]. apply elem_of_list_In. by eapply elem_of_list_lookup_2. }
  by rewrite !orb_true_r.
Qed.
Definition yields (s : state) (t : nat) (n : nat) (e : ev) : Prop := newly s (run s (replicate n (Step t))) e.
Lemma yields_more s t u rest s1 new n e : thr s !! t = Some (u :: rest) → exec u s = (s1, new) → new ++ rest ≠ [] → log s1 = log s →
  yields (set_thr (<[t := new ++ rest]> (thr s1)) s1) t n e → yields s t (S n) e.
Proof.
  intros Ht E Hn Hl (k & H1 & H2). exists k. split; [|done]. unfold between in *. cbn [replicate]. unfold run in *. cbn [fold_left].
  assert (step s (Step t) = set_thr (<[t := new ++ rest]> (thr s1)) s1) as ->.
  { unfold step, do_step. rewrite Ht, E. destruct (new ++ rest) as [|v p] eqn:Ep; [done|]. eapply (owned_busy _ t). prj.
    pose proof (exec_thr u s) as H. rewrite E in H. cbn in H. rewrite H. apply list_lookup_insert. by eapply lookup_lt_Some. }
  rewrite H1. prj. by rewrite Hl.
Qed.
Lemma yields_now s t u rest s1 new e : thr s !! t = Some (u :: rest) → exec u s = (s1, new) → log s1 = e :: log s → yields s t 1 e.
Proof.
  intros Ht E Hl. unfold yields, run. cbn [replicate fold_left]. unfold step, do_step. rewrite Ht, E.
  set (x := set_thr (<[t:=new ++ rest]> (thr s1)) s1).
  assert (log x = e :: log s) as Hx by done.
  unfold collect. destruct (chan_owned x).
  - exists [e]. split; [done|]. by left.
  - destruct (free_evs x) as (k & Hk & _). exists (k ++ [e]). split; [unfold between; by rewrite Hk, Hx, <-app_assoc|].
    apply elem_of_app. right. by left.
Qed.
Lemma start_call s o u s1 : api o s = call [u] s1 → (∀ t, o ≠ Step t) → thr s1 = thr s → log s1 = log s →
  ∀ n e, yields (call [u] s1) (length (thr s)) n e → newly s (run s (o :: replicate n (Step (length (thr s))))) e.
Proof.
  intros Ho Hs Ht Hl n e (k & H1 & H2). exists k. split; [|done]. unfold between in *. unfold run in *. cbn [fold_left].
  assert (step s o = call [u] s1) as ->.
  { unfold step. destruct o; try (by exfalso; eapply Hs); rewrite Ho; apply (owned_busy _ (length (thr s)) u []); cbn; rewrite Ht; by rewrite lookup_app_r, Nat.sub_diag. }
  rewrite H1. by rewrite <-Hl.
Qed.
Lemma call_lookup p s1 n : thr s1 = n → thr (call p s1) !! length n = Some p.
Proof. intros <-. cbn. by rewrite lookup_app_r, Nat.sub_diag. Qed.

(** Polling a reply channel through a future. *)
Lemma yields_reply s t f m sf o : thr s !! t = Some [UReplyPoll f m] → sfs s !! f = Some sf → snd (poll_reply m (sf_wk sf) s) = o →
  yields s t 1 (EvSend f o).
Proof.
  intros Ht Hf Ho. destruct (poll_reply m (sf_wk sf) s) as [s1 o'] eqn:E. cbn in Ho. subst o'.
  eapply yields_now; [done|cbn [exec]; rewrite Hf, E; done|]. rewrite send_out_log.
  pose proof (f_equal fst E) as E'. cbn in E'. subst s1. by autorewrite with fr_log.
Qed.

(** ** What a future finds when it is polled *)
Lemma sum_two_elem {A} (g : A → nat) l x y : x ∈ l → y ∈ l → x ≠ y → g x + g y ≤ Σ g l.
Proof.
  intros [i Hi]%elem_of_list_lookup [j Hj]%elem_of_list_lookup Hn. eapply sum_two; [done..|]. intros ->. congruence.
Qed.
Lemma end_once s m : reach s → Σ (e_end m) (log s) ≤ 1.
Proof.
  intros Hr. destruct (decide (m < length (reps s))) as [Hm|Hm]; [|rewrite end_lt; [lia|done|lia]].
  destruct (somewhere s m Hr Hm) as [H _].
  assert (Σ (e_end m) (log s) = times (dropped before_accept m) s + times (dropped before_receive m) s + times (dropped by_program m) s + times (finished m) s) as ->; [|lia].
  rewrite (dropped_sum d_pre before_accept), (dropped_sum d_mid before_receive), (dropped_sum (λ y, d_msg y + d_run y) by_program) by (by intros []).
  assert (times (finished m) s = Σ (e_done m) (log s)) as -> by (apply cnt_sum; b2n).
  rewrite <-!sum_add. apply sum_ext. intros e _; destruct e; cbn; try done; try lia; try (unfold isn; case_match; lia). all: destruct y; cbn; unfold isn; case_match; lia.
Qed.
Lemma end_same s m e e' : reach s → e ∈ log s → e' ∈ log s → e_end m e = 1 → e_end m e' = 1 → e = e'.
Proof.
  intros Hr He He' H1 H2. assert (∀ x y : ev, x = y ∨ x ≠ y) as Hdec.
  { intros x y. assert (Decision (x = y)) as []; [|by left|by right]. unfold Decision. repeat decide equality. }
  destruct (Hdec e e') as [?|Hn]; [done|]. pose proof (sum_two_elem (e_end m) _ _ _ He He' Hn). pose proof (end_once s m Hr). lia.
Qed.
Lemma e_end_done m v : e_end m (EvDone m v) = 1.
Proof. cbn. unfold isn. by rewrite Nat.eqb_refl. Qed.
Lemma e_end_drop m y : e_end m (EvDrop m y) = 1.
Proof. cbn. unfold isn. by rewrite Nat.eqb_refl. Qed.

Lemma reply_ready s m e : reach s → quiet s → at_ r_rx (reps s) m = 1 → at_ r_tk (reps s) m = 0 → e ∈ log s → e_end m e = 1 →
  (∃ v, reps s !! m = Some (RP true (RVal v)) ∧ e = EvDone m v) ∨
  (reps s !! m = Some (RP true RClosed) ∧ ∃ y, e = EvDrop m y).
Proof.
  intros Hr Hq Hrx Htk He Hm. destruct (at_pos r_rx (reps s) m) as ([rx st] & Hs & Hp); [lia|].
  rewrite (at_some _ _ _ _ Hs) in Hrx. rewrite (at_some _ _ _ _ Hs) in Htk. unfold r_rx, r_tk in *. cbn in *. destruct rx; [|lia].
  destruct (reach_val s Hr) as (_ & V2 & _ & V4).
  destruct st as [w|v| |]; [| | |lia].
  - pose proof (reach_open s Hr m w Hs) as HO. rewrite quiet_msum in HO by done. pose proof (sum_elem (e_end m) _ _ He). lia.
  - left. exists v. split; [done|]. eapply end_same; eauto using e_end_done.
  - right. split; [done|]. destruct (V4 _ _ Hs) as [y Hy]. exists y. eapply end_same; eauto using e_end_drop.
Qed.
Lemma owner_reply s f x m : reach s → quiet s → sfs s !! f = Some x → pollable x → message_of x = Some m →
  at_ r_rx (reps s) m = 1 ∧ at_ r_tk (reps s) m = 0.
Proof.
  intros Hr Hq Hf (Hl & Hs & _) [Hi _]%message_of_is.
  pose proof (reach_live s Hr m) as HL. pose proof (reach_tk s Hr m) as HT. rewrite quiet_msum in HL by done.
  pose proof (sum_lookup (f_il m) _ _ _ Hf) as H1. pose proof (sum_lookup (f_op m) _ _ _ Hf) as H2.
  assert (f_il m x = 1) as E1 by (unfold f_il; by rewrite Hl). assert (f_op m x = 1) as E2 by (unfold f_op; by destruct (sf_st x)).
  pose proof (at_bound r_rx (reps s) m 1 ltac:(intros [[] ?]; cbn; lia)). lia.
Qed.
Lemma rcv_reply s x rc : reach s → quiet s → rcvs s !! x = Some rc → rc_live rc = true → rc_st rc = XIdle →
  at_ r_rx (reps s) (rc_m rc) = 1 ∧ at_ r_tk (reps s) (rc_m rc) = 0.
Proof.
  intros Hr Hq Hx Hl Hs.
  pose proof (reach_live s Hr (rc_m rc)) as HL. pose proof (reach_tk s Hr (rc_m rc)) as HT. rewrite quiet_msum in HL by done.
  pose proof (sum_lookup (x_il (rc_m rc)) _ _ _ Hx) as H1. pose proof (sum_lookup (x_op (rc_m rc)) _ _ _ Hx) as H2.
  assert (x_il (rc_m rc) rc = 1) as E1 by (unfold x_il; by rewrite Hl, x_is_self).
  assert (x_op (rc_m rc) rc = 1) as E2 by (unfold x_op; by rewrite Hs, x_is_self).
  pose proof (at_bound r_rx (reps s) (rc_m rc) 1 ltac:(intros [[] ?]; cbn; lia)). lia.
Qed.

(** Where the message of a pollable future is. *)
Lemma accepted_sum s m : times (accepted m) s = Σ (e_acc m) (log s).
Proof. apply cnt_sum; b2n. Qed.
Lemma wait_cell s f x m c : reach s → quiet s → sfs s !! f = Some x → message_of x = Some m → sf_st x = SWait c →
  (∃ w k, cells1 s !! c = Some (WC true (WActive w k)) ∧ um_id k = m ∧ 0 < blocked m s) ∨
  (cells1 s !! c = Some (WC true WDelivered) ∧ 0 < times (accepted m) s) ∨
  (cells1 s !! c = Some (WC true WClosed) ∧ EvDrop m DClosed ∈ log s).
Proof.
  intros Hr Hq Hf Hmo Hs. pose proof (message_of_is m x Hmo) as [_ Hm].
  assert (f_c1 c x = 1) as Hc1. { unfold f_c1. rewrite Hs. unfold message_of in Hmo. destruct (sf_mode x); try done; unfold isn; by rewrite Nat.eqb_refl. }
  destruct (reach_cell s Hr c) as [C _]. pose proof (sum_lookup (f_c1 c) _ _ _ Hf) as H1.
  destruct (at_pos c_live (cells1 s) c) as ([al st] & Hc & Hp); [lia|]. unfold c_live in Hp. cbn in Hp. destruct al; [|lia].
  destruct (reach_FC s Hr f c) as [_ HFC]; [rewrite (at_some _ _ _ _ Hf); lia|]. rewrite (at_some _ _ _ _ Hf), Hm in HFC. injection HFC as HFC.
  destruct (reach_blk s Hr) as [_ HB]. destruct (HB c) as (B1 & B2 & B3). rewrite !(at_some _ _ _ _ Hc) in B1. rewrite !(at_some _ _ _ _ Hc) in B2. rewrite !(at_some _ _ _ _ Hc) in B3. cbn in B1, B2, B3. rewrite <-HFC in B1, B2, B3.
  destruct st as [w k| |].
  - left. exists w, k. split; [done|]. specialize (B1 ltac:(lia)). injection B1 as B1. split; [done|].
    unfold blocked. eapply cnt_pos; [by eapply elem_of_list_lookup_2|]. cbn. by rewrite B1, Nat.eqb_refl.
  - right; left. split; [done|]. rewrite accepted_sum. apply B2. lia.
  - right; right. split; [done|]. specialize (B3 ltac:(lia)). apply sum_pos in B3 as (e & He & Hp2). destruct e as [| | | | | | | | |m' [] | | | | | | |]; cbn in Hp2; try lia.
    unfold isn in Hp2. destruct (Nat.eqb_spec m' m) as [->|]; [done|lia].
Qed.
Lemma new_pre s f x m p k : reach s → sfs s !! f = Some x → message_of x = Some m → sf_st x = SNew p k →
  ∃ u, p = PU u ∧ um_id u = m.
Proof.
  intros Hr Hf Hmo Hs. pose proof (message_of_is m x Hmo) as [_ Hm]. destruct p as [u|b].
  - exists u. split; [done|]. destruct (reach_K s Hr f (um_id u)) as (K & _). rewrite !(at_some _ _ _ _ Hf) in K. unfold f_um in K. rewrite Hs in K. unfold is, isn in K.
    rewrite Nat.eqb_refl in K. specialize (K ltac:(lia)). congruence.
  - exfalso. destruct (reach_K s Hr f m) as (_ & _ & K & _). rewrite !(at_some _ _ _ _ Hf) in K. unfold f_bro in K. rewrite Hs in K.
    specialize (K ltac:(lia)). unfold fk, message_of in *. destruct (sf_mode x) as [|[]|]; done.
Qed.
Lemma pollable_accepted s f x m : reach s → quiet s → sfs s !! f = Some x → pollable x → message_of x = Some m → 0 < times (accepted m) s →
  sf_st x = SDone ∨ ∃ c, sf_st x = SWait c ∧ cells1 s !! c = Some (WC true WDelivered).
Proof.
  intros Hr Hq Hf (Hl & H1 & H2) Hm Ha. destruct (somewhere s m Hr (accepted_lt s m Hr Ha)) as [S1 S2].
  destruct (sf_st x) as [p k| |c| |] eqn:Hs; try done; [|right|by left].
  - exfalso. destruct (new_pre s f x m p k Hr Hf Hm Hs) as (u & -> & Hu).
    assert (0 < cnt (λ x, match sf_st x with SNew (PU k) _ => um_id k =? m | _ => false end) (sfs s)); [|lia].
    eapply cnt_pos; [by eapply elem_of_list_lookup_2|]. cbn. by rewrite Hs, Hu, Nat.eqb_refl.
  - exists c. split; [done|]. destruct (wait_cell s f x m c Hr Hq Hf Hm Hs) as [(w & k & _ & _ & ?)|[[? _]|[_ Hd]]]; [lia|done|exfalso].
    assert (0 < times (dropped before_accept m) s); [|lia]. eapply cnt_pos; [exact Hd|]. cbn. by rewrite Nat.eqb_refl.
Qed.
Lemma pollable_dropped s f x m y : reach s → quiet s → sfs s !! f = Some x → pollable x → message_of x = Some m →
  EvDrop m y ∈ log s → times (accepted m) s = 0 →
  ∃ c, sf_st x = SWait c ∧ cells1 s !! c = Some (WC true WClosed).
Proof.
  intros Hr Hq Hf (Hl & H1 & H2) Hm Hy Ha. destruct (somewhere s m Hr (owner_exists s f x m Hr Hf Hm)) as [S1 S2].
  assert (times (dropped before_accept m) s = 1) as Hd.
  { assert (0 < times (dropped before_accept m) s + times (dropped before_receive m) s + times (dropped by_program m) s) as Hp; [|lia].
    assert (∀ ys, ys y = true → 0 < times (dropped ys m) s) as Hys.
    { intros ys E. eapply cnt_pos; [exact Hy|]. cbn. by rewrite Nat.eqb_refl, E. }
    destruct y; try (specialize (Hys before_accept eq_refl); lia); try (specialize (Hys before_receive eq_refl); lia); specialize (Hys by_program eq_refl); lia. }
  destruct (sf_st x) as [p k| |c| |] eqn:Hs; try done.
  - exfalso. destruct (new_pre s f x m p k Hr Hf Hm Hs) as (u & -> & Hu).
    assert (0 < cnt (λ x, match sf_st x with SNew (PU k) _ => um_id k =? m | _ => false end) (sfs s)); [|lia].
    eapply cnt_pos; [by eapply elem_of_list_lookup_2|]. cbn. by rewrite Hs, Hu, Nat.eqb_refl.
  - exists c. split; [done|]. destruct (wait_cell s f x m c Hr Hq Hf Hm Hs) as [(w & k & _ & _ & ?)|[[_ ?]|[? _]]]; [lia|lia|done].
  - exfalso. destruct (reach_ok s Hr) as [O _]. apply message_of_is in Hm as [_ Hm]. specialize (O f m). rewrite !(at_some _ _ _ _ Hf) in O. unfold f_done in O. rewrite Hs in O.
    specialize (O ltac:(lia) Hm). rewrite <-accepted_sum in O. lia.
Qed.

(** ** Polling to the end *)
Definition busy_poll (f : nat) (x : sfut) (s : state) : state :=
  set_nwk (S (nwk s)) (put_sf f (SF SBusy (sf_mode x) true (nwk s)) s).
Lemma poll_starts s f x u : sfs s !! f = Some x → api (APollSend f) s = call [u] (busy_poll f x s) →
  ∀ n e, yields (call [u] (busy_poll f x s)) (length (thr s)) n e → newly s (run s (APollSend f :: replicate n (Step (length (thr s))))) e.
Proof. intros Hf Ha. by apply start_call. Qed.
Lemma busy_look f x s : f < length (sfs s) → sfs (busy_poll f x s) !! f = Some (SF SBusy (sf_mode x) true (nwk s)).
Proof. intros H. unfold busy_poll, put_sf. prj. by apply list_lookup_insert. Qed.
Lemma resolve_reply s f x m o : sfs s !! f = Some x → sf_live x = true → sf_mode x = MReturn m → sf_st x = SDone →
  (∀ w s', reps s' = reps s → snd (poll_reply m w s') = o) → resolves_to s f o.
Proof.
  intros Hf Hl Hm Hs Ho. exists 1. eapply (poll_starts s f x (UReplyPoll f m)); [done|..].
  - cbn [api]. rewrite Hf. destruct x as [st md l w]; cbn in *; subst. done.
  - eapply yields_reply; [by apply call_lookup|apply busy_look; by eapply lookup_lt_Some|]. by apply Ho.
Qed.
Lemma cell_step s t f c sf st u' : thr s !! t = Some [USendCell1 f c] → sfs s !! f = Some sf →
  cells1 s !! c = Some (WC true st) → (st = WDelivered ∧ u' = USendOk f ∨ st = WClosed ∧ u' = USendErr f) → ∃ s1,
  exec (USendCell1 f c) s = (s1, [u']) ∧ log s1 = log s ∧ sfs s1 = sfs s ∧ reps s1 = reps s ∧ thr s1 = thr s ∧ rcvs s1 = rcvs s.
Proof.
  intros Ht Hf Hc Hu. exists (set_cells1 (<[c := WC false st]> (cells1 s)) s). split; [|done].
  cbn [exec]. rewrite Hf. unfold exec_send_cell1. rewrite Hc. by destruct Hu as [[-> ->]|[-> ->]].
Qed.
Lemma yields_ok_reply s t f m sf o : thr s !! t = Some [USendOk f] → sfs s !! f = Some sf → sf_mode sf = MReturn m →
  (∀ w s', reps s' = reps s → snd (poll_reply m w s') = o) → yields s t 2 (EvSend f o).
Proof.
  intros Ht Hf Hm Ho. eapply (yields_more _ _ _ _ s [UReplyPoll f m]); [done|cbn [exec]; rewrite Hf; unfold exec_send_ok; by rewrite Hm|done|done|].
  eapply yields_reply; [prj; apply list_lookup_insert; by eapply lookup_lt_Some|done|]. by apply Ho.
Qed.
Lemma yields_ok_detached s t f m sf : thr s !! t = Some [USendOk f] → sfs s !! f = Some sf → sf_mode sf = MDetached (Some m) →
  yields s t 1 (EvSend f (OReceiver (length (rcvs s)))).
Proof.
  intros Ht Hf Hm. eapply yields_now; [done|cbn [exec]; rewrite Hf; unfold exec_send_ok; by rewrite Hm|done].
Qed.
Lemma resolve_cell s f x c u' n e st : sfs s !! f = Some x → sf_live x = true → sf_mode x ≠ MBroadcast → sf_st x = SWait c →
  cells1 s !! c = Some (WC true st) → (st = WDelivered ∧ u' = USendOk f ∨ st = WClosed ∧ u' = USendErr f) →
  (∀ s1 sf, sfs s1 !! f = Some sf → sf_mode sf = sf_mode x → reps s1 = reps s → rcvs s1 = rcvs s → thr s1 !! length (thr s) = Some [u'] →
     yields s1 (length (thr s)) n e) →
  newly s (run s (APollSend f :: replicate (S n) (Step (length (thr s))))) e.
Proof.
  intros Hf Hl Hm Hs Hc Hu H. eapply (poll_starts s f x (USendCell1 f c)); [done|..].
  - cbn [api]. rewrite Hf. destruct x as [st' md l w]; cbn in *; subst. by destruct md.
  - destruct (cell_step (call [USendCell1 f c] (busy_poll f x s)) (length (thr s)) f c _ st u' (call_lookup _ _ _ eq_refl) (busy_look f x s ltac:(by eapply lookup_lt_Some)) Hc Hu) as (s1 & E1 & E2 & E3 & E4 & E5 & E6).
    eapply yields_more; [by apply call_lookup|exact E1|done|exact E2|].
    eapply H; prj; [rewrite E3; apply busy_look; by eapply lookup_lt_Some|done|by rewrite E4|by rewrite E6|].
    rewrite E5. apply list_lookup_insert. eapply lookup_lt_Some. by apply call_lookup.
Qed.
Lemma poll_reply_val m v s : reps s !! m = Some (RP true (RVal v)) → ∀ w s', reps s' = reps s → snd (poll_reply m w s') = OValue v.
Proof. intros H w s' E. unfold poll_reply. by rewrite E, H. Qed.
Lemma poll_reply_closed m s : reps s !! m = Some (RP true RClosed) → ∀ w s', reps s' = reps s → snd (poll_reply m w s') = OErrInterrupted.
Proof. intros H w s' E. unfold poll_reply. by rewrite E, H. Qed.

Lemma resolve_accepted s f x m o : reach s → quiet s → sfs s !! f = Some x → pollable x → sf_mode x = MReturn m →
  0 < times (accepted m) s → (∀ w s', reps s' = reps s → snd (poll_reply m w s') = o) → resolves_to s f o.
Proof.
  intros Hr Hq Hf Hp Hm Ha Ho. assert (message_of x = Some m) as Hmo by (unfold message_of; by rewrite Hm).
  destruct (pollable_accepted s f x m Hr Hq Hf Hp Hmo Ha) as [Hs|(c & Hs & Hc)].
  - eapply resolve_reply; try done. apply Hp.
  - exists 3. eapply (resolve_cell s f x c (USendOk f)); try done; [apply Hp|by rewrite Hm|by left|].
    intros s1 sf H1 H2 H3 H4 H5. eapply yields_ok_reply; [done|done|by rewrite H2|]. by rewrite H3.
Qed.
Lemma done_accepted s m v : reach s → EvDone m v ∈ log s → 0 < times (accepted m) s.
Proof.
  intros Hr Hv. destruct (decide (m < length (reps s))) as [Hm|Hm].
  - destruct (somewhere s m Hr Hm) as [H1 H2]. assert (0 < times (finished m) s); [|lia].
    eapply cnt_pos; [exact Hv|]. cbn. by rewrite Nat.eqb_refl.
  - pose proof (end_lt s m Hr ltac:(lia)) as H. pose proof (sum_elem (e_end m) _ _ Hv) as H1. rewrite e_end_done in H1. lia.
Qed.
(** The value of a finished message is there for its sender. *)
Lemma resolve_value s f x m v : reach s → quiet s → sfs s !! f = Some x → pollable x → sf_mode x = MReturn m →
  EvDone m v ∈ log s → resolves_to s f (OValue v).
Proof.
  intros Hr Hq Hf Hp Hm Hv. assert (message_of x = Some m) as Hmo by (unfold message_of; by rewrite Hm).
  destruct (owner_reply s f x m Hr Hq Hf Hp Hmo) as [R1 R2].
  eapply resolve_accepted; eauto using done_accepted.
  destruct (reply_ready s m _ Hr Hq R1 R2 Hv (e_end_done m v)) as [(v' & Hv' & [= <-])|(_ & y & [=])]. by apply poll_reply_val.
Qed.
Lemma resolve_interrupted s f x m y : reach s → quiet s → sfs s !! f = Some x → pollable x → sf_mode x = MReturn m →
  EvDrop m y ∈ log s → 0 < times (accepted m) s → resolves_to s f OErrInterrupted.
Proof.
  intros Hr Hq Hf Hp Hm Hv Ha. assert (message_of x = Some m) as Hmo by (unfold message_of; by rewrite Hm).
  destruct (owner_reply s f x m Hr Hq Hf Hp Hmo) as [R1 R2].
  eapply resolve_accepted; eauto.
  destruct (reply_ready s m _ Hr Hq R1 R2 Hv (e_end_drop m y)) as [(v' & _ & [=])|(Hv' & _)]. by apply poll_reply_closed.
Qed.
Lemma resolve_disconnected s f x m y : reach s → quiet s → sfs s !! f = Some x → pollable x → message_of x = Some m →
  EvDrop m y ∈ log s → times (accepted m) s = 0 → resolves_to s f OErrDisconnected.
Proof.
  intros Hr Hq Hf Hp Hm Hv Ha. destruct (pollable_dropped s f x m y Hr Hq Hf Hp Hm Hv Ha) as (c & Hs & Hc).
  exists 2. eapply (resolve_cell s f x c (USendErr f)); try done; [apply Hp|by intros E; unfold message_of in Hm; rewrite E in Hm|by right|].
  intros s1 sf H1 H2 H3 H4 H5. eapply yields_now; [done|done|]. by rewrite send_out_log.
Qed.
Lemma resolve_detached s f x m : reach s → quiet s → sfs s !! f = Some x → pollable x → sf_mode x = MDetached (Some m) →
  0 < times (accepted m) s → resolves_to s f (OReceiver (length (rcvs s))).
Proof.
  intros Hr Hq Hf Hp Hm Ha. assert (message_of x = Some m) as Hmo by (unfold message_of; by rewrite Hm).
  destruct (pollable_accepted s f x m Hr Hq Hf Hp Hmo Ha) as [Hs|(c & Hs & Hc)].
  - exists 1. eapply (poll_starts s f x (USendOk f)); [done|..].
    + cbn [api]. rewrite Hf. destruct Hp as [Hl _]. destruct x as [st md l w]; cbn in *; subst. done.
    + apply (yields_ok_detached (call [USendOk f] (busy_poll f x s)) (length (thr s)) f m (SF SBusy (sf_mode x) true (nwk s)));
        [by apply call_lookup|apply busy_look; by eapply lookup_lt_Some|done].
  - exists 2. eapply (resolve_cell s f x c (USendOk f)); try done; [apply Hp|by rewrite Hm|by left|].
    intros s1 sf H1 H2 H3 H4 H5. rewrite <-H4. eapply yields_ok_detached; [done|done|by rewrite H2].
Qed.
Lemma resolve_rcv s x rc o : reach s → quiet s → rcvs s !! x = Some rc → rc_live rc = true → rc_st rc = XIdle →
  (∀ w s', reps s' = reps s → snd (poll_reply (rc_m rc) w s') = o) → receiver_resolves_to s x o.
Proof.
  intros Hr Hq Hx Hl Hs Ho. exists 1.
  set (s0 := set_nwk (S (nwk s)) (set_rcvs (<[x := RC (rc_m rc) XBusy true (nwk s)]> (rcvs s)) s)).
  assert (rcvs s0 !! x = Some (RC (rc_m rc) XBusy true (nwk s))) as H0 by (apply list_lookup_insert; by eapply lookup_lt_Some).
  apply (start_call s (APollRcv x) (URcvPoll x) s0); [|done..|].
  - cbn [api]. rewrite Hx. destruct rc as [m st l w]; cbn in *; subst. done.
  - destruct (poll_reply (rc_m rc) (nwk s) (call [URcvPoll x] s0)) as [s1 o'] eqn:E.
    assert (o' = o) as -> by (specialize (Ho (nwk s) (call [URcvPoll x] s0) eq_refl); by rewrite E in Ho).
    eapply yields_now; [by apply call_lookup|cbn [exec rcvs call set_thr]; rewrite H0; cbn [rc_m rc_wk]; rewrite E; done|].
    unfold emit. prj. pose proof (f_equal fst E) as E'. cbn [fst] in E'. subst s1. by autorewrite with fr_log.
Qed.
Lemma resolve_rcv_value s x rc v : reach s → quiet s → rcvs s !! x = Some rc → rc_live rc = true → rc_st rc = XIdle →
  EvDone (rc_m rc) v ∈ log s → receiver_resolves_to s x (OValue v).
Proof.
  intros Hr Hq Hx Hl Hs Hv. eapply resolve_rcv; eauto. destruct (rcv_reply s x rc Hr Hq Hx Hl Hs) as [R1 R2].
  destruct (reply_ready s _ _ Hr Hq R1 R2 Hv (e_end_done _ v)) as [(v' & Hv' & [= <-])|(_ & y & [=])]. by apply poll_reply_val.
Qed.
Lemma resolve_rcv_interrupted s x rc y : reach s → quiet s → rcvs s !! x = Some rc → rc_live rc = true → rc_st rc = XIdle →
  EvDrop (rc_m rc) y ∈ log s → receiver_resolves_to s x OErrInterrupted.
Proof.
  intros Hr Hq Hx Hl Hs Hv. eapply resolve_rcv; eauto. destruct (rcv_reply s x rc Hr Hq Hx Hl Hs) as [R1 R2].
  destruct (reply_ready s _ _ Hr Hq R1 R2 Hv (e_end_drop _ y)) as [(v' & _ & [=])|(Hv' & _)]. by apply poll_reply_closed.
Qed.

(** ** The end of the channel *)
Lemma existsb_none {A} (p : A → bool) l : (∀ x, x ∈ l → p x = false) → existsb p l = false.
Proof.
  intros H. destruct (existsb p l) eqn:E; [|done]. apply existsb_exists in E as (x & Hx & Hp). apply elem_of_list_In in Hx.
  rewrite H in Hp by done. done.
Qed.
Lemma abandoned_owned s : abandoned s → chan_owned s = false.
Proof.
  intros (H1 & H2 & H3 & H4). unfold chan_owned. rewrite !existsb_none; [done|..].
  - intros p [t Ht]%elem_of_list_lookup. by rewrite (H1 _ _ Ht).
  - intros x [f Hf]%elem_of_list_lookup. destruct (sf_live x) eqn:El; [|done]. destruct (sf_st x) eqn:Es; try done. by destruct (H4 _ _ p strong Hf El).
  - intros h [r Hh]%elem_of_list_lookup. by rewrite (H3 _ _ Hh).
  - intros a [i Hi]%elem_of_list_lookup. by eapply H2.
Qed.
Lemma free_empty s : uq (free_chan s) = [] ∧ ws1 (free_chan s) = [] ∧ wsA (free_chan s) = [] ∧ wrx (free_chan s) = [].
Proof.
  unfold free_chan. cbv zeta. split_and!; repeat (progress (prj; autorewrite with fr_uq fr_ws1 fr_wsA fr_wrx)); done.
Qed.
Lemma abandoned_empty s : reachable s → abandoned s → uq s = [] ∧ ws1 s = [] ∧ wsA s = [] ∧ wrx s = [].
Proof.
  intros (c & ops & ->) Ha. destruct ops as [|o ops _] using rev_ind.
  - destruct Ha as (_ & Ha & _). by specialize (Ha 0 (AD true false true) eq_refl).
  - rewrite run_app in *. unfold run in *. cbn [fold_left] in *. set (s := fold_left step ops (init c)) in *. unfold step in *.
    set (x := match o with Step t => do_step t s | _ => api o s end) in *.
    unfold collect in *. destruct (chan_owned x) eqn:Ho; [|apply free_empty].
    apply abandoned_owned in Ha. by rewrite Ha in Ho.
Qed.
Lemma over_elem s m : reach s → m < length (reps s) → quiet s →
  times (dropped before_accept m) s + times (dropped before_receive m) s + times (dropped by_program m) s + times (finished m) s = 1 → over m s.
Proof.
  intros Hr Hm Hq H.
  assert (∀ ys, 0 < times (dropped ys m) s → over m s) as Hd.
  { intros ys (e & He & Hp)%cnt_pos_inv. destruct e; try done. cbn in Hp. apply andb_true_iff in Hp as [->%Nat.eqb_eq _]. right. by eexists. }
  destruct (decide (0 < times (finished m) s)) as [(e & He & Hp)%cnt_pos_inv|].
  { destruct e; try done. cbn in Hp. apply Nat.eqb_eq in Hp as ->. left. by eexists. }
  destruct (decide (0 < times (dropped before_accept m) s)); [eauto|].
  destruct (decide (0 < times (dropped before_receive m) s)); [eauto|]. apply (Hd by_program). lia.
Qed.
Lemma quiet_todo s p : quiet s → todo p s = 0.
Proof.
  intros Hq. apply cnt_zero. intros u Hu. apply elem_of_list_In, in_concat in Hu as (q & Hu & Hin). rewrite <-!elem_of_list_In in *.
  apply elem_of_list_lookup in Hu as [t Ht]. apply Hq in Ht as ->. by apply elem_of_nil in Hin.
Qed.
Lemma empty_blocked s m : reach s → ws1 s = [] → blocked m s = 0.
Proof.
  intros Hr Hw. apply cnt_zero. intros x [c Hc]%elem_of_list_lookup. destruct x as [[] [w k| |]]; try done.
  destruct (reach_ws s Hr) as (W & _). destruct (W c) as [_ W2]. rewrite (at_some _ _ _ _ Hc), Hw in W2. cbn in W2. lia.
Qed.
Lemma new_live s m : reach s → (∀ f x p k, sfs s !! f = Some x → sf_live x = true → message_of x = Some m → sf_st x ≠ SNew p k) →
  cnt (λ x, match sf_st x with SNew (PU k) _ => um_id k =? m | _ => false end) (sfs s) = 0.
Proof.
  intros Hr H. apply cnt_zero. intros x [f Hf]%elem_of_list_lookup. destruct (sf_st x) as [[k|]| | | |] eqn:Hs; try done.
  destruct (Nat.eqb_spec (um_id k) m) as [Hk|]; [|done]. exfalso.
  destruct (sf_live x) eqn:El.
  - eapply H; try done. destruct (reach_K s Hr f m) as (K & _). rewrite !(at_some _ _ _ _ Hf) in K. unfold f_um in K. rewrite Hs in K. unfold is, isn in K.
    rewrite Hk, Nat.eqb_refl in K. specialize (K ltac:(lia)). unfold fm, message_of in *. destruct (sf_mode x) as [|[]|]; congruence.
  - pose proof (reach_dead s Hr) as HD. pose proof (sum_lookup f_dead _ _ _ Hf) as HL. rewrite HD in HL. unfold f_dead in HL. rewrite El, Hs in HL. lia.
Qed.
(** In a quiet state with empty queues and no receiver-side object every message that was
    ever polled is over. *)
Lemma drained_over s m : reach s → quiet s → uq s = [] → ws1 s = [] → (∀ r h, hols s !! r = Some h → h_st h = HGone) →
  (∀ f x p k, sfs s !! f = Some x → sf_live x = true → message_of x = Some m → sf_st x ≠ SNew p k) → m < length (reps s) → over m s.
Proof.
  intros Hr Hq Hu Hw Hh Hn Hm. destruct (somewhere s m Hr Hm) as [H1 _]. apply over_elem; try done.
  rewrite (new_live s m Hr Hn), (empty_blocked s m Hr Hw) in H1. rewrite !quiet_todo in H1 by done.
  assert (in_queue m s = 0) as E1 by (unfold in_queue; by rewrite Hu).
  assert (in_flight m s = 0) as E2.
  { destruct (decide (0 < in_flight m s)) as [Hp|]; [|lia]. destruct (in_flight_owner s m Hr Hp) as [(r & h & o & k & H2 & H3 & _)|H2].
    - rewrite (Hh _ _ H2) in H3. done.
    - rewrite quiet_todo in H2 by done. lia. }
  assert (held m s = 0) as E3 by (apply cnt_zero; intros h [r Hr']%elem_of_list_lookup; by rewrite (Hh _ _ Hr')).
  assert (running m s = 0) as E4 by (apply cnt_zero; intros h [r Hr']%elem_of_list_lookup; by rewrite (Hh _ _ Hr')).
  unfold in_requeue, in_drop in H1. rewrite !quiet_todo in H1 by done. lia.
Qed.
(** How a broadcast future resolves. *)
Lemma resolve_bcast s f x c st o : sfs s !! f = Some x → sf_live x = true → sf_mode x = MBroadcast → sf_st x = SWait c →
  cellsA s !! c = Some (WC true st) → (st = WDelivered ∧ o = OOk ∨ st = WClosed ∧ o = OErrDisconnected) → resolves_to s f o.
Proof.
  intros Hf Hl Hm Hs Hc Ho. exists 2. eapply (poll_starts s f x (USendCellA f c)); [done|..].
  - cbn [api]. rewrite Hf. destruct x as [st' md l w]; cbn in *; subst. done.
  - set (s0 := call [USendCellA f c] (busy_poll f x s)).
    assert (f < length (sfs s)) as Hlt by by eapply lookup_lt_Some.
    assert (sfs s0 !! f = Some (SF SBusy (sf_mode x) true (nwk s))) as H0 by by apply busy_look.
    set (u' := match st with WDelivered => USendOk f | _ => USendErr f end).
    assert (exec (USendCellA f c) s0 = (set_cellsA (<[c := WC false st]> (cellsA s0)) s0, [u'])) as E.
    { cbn [exec]. rewrite H0. unfold exec_send_cellA. assert (cellsA s0 !! c = Some (WC true st)) as -> by done. by destruct Ho as [[-> ->]|[-> ->]]. }
    eapply yields_more; [by apply call_lookup|exact E|done|done|].
    destruct Ho as [[-> ->]|[-> ->]]; cbn [u'].
    + eapply yields_now; [prj; apply list_lookup_insert; eapply lookup_lt_Some; by apply call_lookup| |].
      * unfold u'. cbn [exec]. change (sfs (set_thr _ _)) with (sfs s0). rewrite H0. unfold exec_send_ok. cbn [sf_mode]. rewrite Hm. reflexivity.
      * by rewrite send_out_log.
    + eapply yields_now; [prj; apply list_lookup_insert; eapply lookup_lt_Some; by apply call_lookup|reflexivity|]. by rewrite send_out_log.
Qed.
Lemma ended_resolves s f x m : reach s → quiet s → sfs s !! f = Some x → pollable x → message_of x = Some m → over m s →
  ∃ o, o ≠ OPending ∧ o ≠ OPanic ∧ resolves_to s f o.
Proof.
  intros Hr Hq Hf Hp Hm Ho. destruct (decide (0 < times (accepted m) s)) as [Ha|Ha].
  - unfold message_of in Hm. destruct (sf_mode x) as [k|[k|]|] eqn:Hmd; try done; injection Hm as ->.
    + destruct Ho as [[v Hv]|[y Hy]].
      * exists (OValue v). split_and!; try done. by eapply resolve_value.
      * exists OErrInterrupted. split_and!; try done. by eapply resolve_interrupted.
    + exists (OReceiver (length (rcvs s))). split_and!; try done. by eapply resolve_detached.
  - destruct Ho as [[v Hv]|[y Hy]].
    + exfalso. apply Ha. by eapply done_accepted.
    + exists OErrDisconnected. split_and!; try done. eapply resolve_disconnected; try done. lia.
Qed.
Lemma rcv_resolves s x rc : reach s → quiet s → rcvs s !! x = Some rc → rc_live rc = true → rc_st rc = XIdle → over (rc_m rc) s →
  ∃ o, o ≠ OPending ∧ o ≠ OPanic ∧ receiver_resolves_to s x o.
Proof.
  intros Hr Hq Hx Hl Hs [[v Hv]|[y Hy]].
  - exists (OValue v). split_and!; try done. by eapply resolve_rcv_value.
  - exists OErrInterrupted. split_and!; try done. by eapply resolve_rcv_interrupted.
Qed.
(** A broadcast that was polled and is still pending waits for its cell. *)
Lemma bcast_resolves s f x : reach s → quiet s → wsA s = [] → sfs s !! f = Some x → pollable x → sf_mode x = MBroadcast →
  (∀ p k, sf_st x ≠ SNew p k) → ∃ o, (o = OOk ∨ o = OErrDisconnected) ∧ resolves_to s f o.
Proof.
  intros Hr Hq Hw Hf (Hl & H1 & H2) Hm Hn. destruct (sf_st x) as [p k| |c| |] eqn:Hs; try done; [by destruct (Hn p k)| |].
  - destruct (reach_cell s Hr c) as [_ C]. pose proof (sum_lookup (f_cA c) _ _ _ Hf) as HS. unfold f_cA at 1 in HS. rewrite Hs, Hm in HS.
    unfold isn in HS at 1. rewrite Nat.eqb_refl in HS.
    destruct (at_pos c_live (cellsA s) c) as ([al st] & Hc & Hp); [lia|]. unfold c_live in Hp. cbn in Hp. destruct al; [|lia].
    destruct st as [w k| |].
    + exfalso. destruct (reach_ws s Hr) as (_ & W & _). destruct (W c) as [_ W2]. rewrite (at_some _ _ _ _ Hc), Hw in W2. cbn in W2. lia.
    + exists OOk. split; [by left|]. eapply resolve_bcast; eauto.
    + exists OErrDisconnected. split; [by right|]. eapply resolve_bcast; eauto.
  - exfalso. destruct (reach_K s Hr f 0) as (_ & K & _). rewrite !(at_some _ _ _ _ Hf) in K. unfold f_uni, fk in K. rewrite Hs, Hm in K. specialize (K ltac:(lia)). lia.
Qed.
