(** Proofs about disconnection and about broadcasts. *)
From stdpp Require Import base numbers list list_numbers.
From Coq Require Import Lia.
From Verif Require Import Prio Heap State Model HeapProofs Frame Lib InvBusy InvCount Effects InvMsg InvMsg2
  InvHeap InvOne InvOne2 InvDisc InvWait InvWait2 InvFut InvCell WaitSpec InvWs InvBlk Mono InvSend InvErr
  Events Wake InvSmall InvRep InvPoll InvBc InvLag InvConn Spec Bridge FinalA FinalB FinalC FinalE.

(** ** Failed sends *)
Definition will (s : state) (t : nat) (e : ev) : Prop := ∃ n, yields s t n e.
Lemma will_more s t u rest e : thr s !! t = Some (u :: rest) → rest ≠ [] →
  (∀ s', thr s' !! t = Some (snd (exec u s) ++ rest) → will s' t e) → will s t e.
Proof.
  intros Ht Hr H. destruct (exec u s) as [s1 new] eqn:E. cbn [snd] in H.
  pose proof (exec_thr u s) as Hthr. rewrite E in Hthr. cbn in Hthr.
  assert (new ++ rest ≠ []) as Hn by (destruct new; [done|done]).
  destruct (H (set_thr (<[t := new ++ rest]> (thr s1)) s1)) as (n & k & H1 & H2).
  { prj. rewrite Hthr. apply list_lookup_insert. by eapply lookup_lt_Some. }
  destruct (exec_logx _ _ _ _ E) as [k' Hk]. exists (S n), (k ++ k'). split; [|apply elem_of_app; by left].
  unfold between in *. cbn [replicate]. unfold run in *. cbn [fold_left].
  assert (step s (Step t) = set_thr (<[t := new ++ rest]> (thr s1)) s1) as ->.
  { unfold step, do_step. rewrite Ht, E. destruct (new ++ rest) as [|v p] eqn:Ep; [done|]. eapply (owned_busy _ t). prj.
    rewrite Hthr. apply list_lookup_insert. by eapply lookup_lt_Some. }
  rewrite H1. prj. by rewrite Hk, app_assoc.
Qed.
Lemma err_will s t f : thr s !! t = Some [USendErr f] → will s t (EvSend f OErrDisconnected).
Proof. intros Ht. exists 1. eapply yields_now; [done|done|]. by rewrite send_out_log. Qed.
Lemma app_nil_r2 {A} (l : list A) x : l ++ [x] ≠ [].
Proof. by destruct l. Qed.
Lemma err_notifies l s t f : thr s !! t = Some (map UTxNotify l ++ [USendErr f]) → will s t (EvSend f OErrDisconnected).
Proof.
  revert s; induction l as [|o l IH]; intros s Ht; [by apply err_will|].
  eapply will_more; [exact Ht|apply app_nil_r2|]. intros s'. cbn. apply IH.
Qed.
Lemma err_txdrop k s t f : thr s !! t = Some (tx_drop k ++ [USendErr f]) → will s t (EvSend f OErrDisconnected).
Proof.
  destruct k; cbn [tx_drop app]; [|apply err_will]. intros Ht. eapply will_more; [exact Ht|done|]. intros s'. cbn [exec snd].
  destruct (txc s =? 1); [|apply err_will]. cbn [app]. intros Ht'. eapply will_more; [exact Ht'|done|]. intros s''. cbn [exec snd]. apply err_notifies.
Qed.
Lemma err_payload p y k s t f : thr s !! t = Some (payload_drop p y ++ tx_drop k ++ [USendErr f]) → will s t (EvSend f OErrDisconnected).
Proof.
  destruct p; cbn [payload_drop app]; [|apply err_txdrop]. intros Ht. eapply will_more; [exact Ht|by destruct k|].
  intros s'. cbn [exec snd app]. apply err_txdrop.
Qed.
(** Polling an unsent future on a disconnected channel fails. *)
Lemma resolve_new_disc s f x p k : sfs s !! f = Some x → sf_live x = true → sf_st x = SNew p k → disc s → resolves_to s f OErrDisconnected.
Proof.
  intros Hf Hl Hs Hd.
  assert (will (call [USendLd1 f p k] (busy_poll f x s)) (length (thr s)) (EvSend f OErrDisconnected)) as [n Hn].
  { set (s0 := call [USendLd1 f p k] (busy_poll f x s)). assert (thr s0 !! length (thr s) = Some [USendLd1 f p k]) as H0 by by apply call_lookup.
    assert (∀ q, q ++ [USendErr f] ≠ []) as Hq by (intros; apply app_nil_r2).
    destruct (Nat.eqb_spec (rxc s) 0) as [Hr|Hr].
    - assert (exec (USendLd1 f p k) s0 = (s0, payload_drop p DDisconnected ++ tx_drop k ++ [USendErr f])) as E by (cbn [exec]; change (rxc s0) with (rxc s); by rewrite Hr).
      set (s1 := set_thr (<[length (thr s) := (payload_drop p DDisconnected ++ tx_drop k ++ [USendErr f]) ++ []]> (thr s0)) s0).
      destruct (err_payload p DDisconnected k s1 (length (thr s)) f) as [n Hn].
      { unfold s1. prj. rewrite app_nil_r. apply list_lookup_insert. by eapply lookup_lt_Some. }
      exists (S n). eapply yields_more; [exact H0|exact E| |done|exact Hn]. by destruct p, k.
    - destruct Hd as [Ht|?]; [|done].
      assert (exec (USendLd1 f p k) s0 = (s0, [USendLd2 f p k])) as E by (cbn [exec]; change (rxc s0) with (rxc s); destruct (Nat.eqb_spec (rxc s) 0); done).
      set (s1 := set_thr (<[length (thr s) := [USendLd2 f p k] ++ []]> (thr s0)) s0).
      assert (thr s1 !! length (thr s) = Some [USendLd2 f p k]) as H1 by (apply list_lookup_insert; by eapply lookup_lt_Some).
      assert (exec (USendLd2 f p k) s1 = (s1, payload_drop p DDisconnected ++ tx_drop k ++ [USendErr f])) as E1 by (cbn [exec]; change (txc s1) with (txc s); by rewrite Ht).
      set (s2 := set_thr (<[length (thr s) := (payload_drop p DDisconnected ++ tx_drop k ++ [USendErr f]) ++ []]> (thr s1)) s1).
      destruct (err_payload p DDisconnected k s2 (length (thr s)) f) as [n Hn].
      { unfold s2. prj. rewrite app_nil_r. apply list_lookup_insert. by eapply lookup_lt_Some. }
      exists (S (S n)). eapply yields_more; [exact H0|exact E|done|done|]. eapply yields_more; [exact H1|exact E1|by destruct p, k|done|exact Hn]. }
  exists n. eapply (poll_starts s f x (USendLd1 f p k)); [done| |exact Hn].
  cbn [api]. rewrite Hf. destruct x as [st md l w]; cbn in *; subst. done.
Qed.

Lemma msum_le g h s : (∀ u, g u ≤ h u) → msum g s ≤ msum h s.
Proof. intros H. unfold msum. apply sum_le. intros l. by apply sum_le. Qed.
Lemma not_conn_disc s : ¬ is_conn s ↔ disc s.
Proof. unfold is_conn, disc. lia. Qed.
(** Whatever happens to an unsent future of a disconnected channel, it only ever fails. *)
Lemma unsent_start s f x p k : reach s → sfs s !! f = Some x → sf_st x = SNew p k → disc s → unsent f (Σ (e_other f) (log s)) s.
Proof.
  intros Hr Hf Hs Hd. assert (at_ isbusy (sfs s) f = 0) as Hb by (rewrite (at_some _ _ _ _ Hf); unfold isbusy; by rewrite Hs).
  split_and!; [by eapply lookup_lt_Some| | | |done].
  - destruct Hd as [?|?]; [by left|right]. split; [done|]. by apply (busyF_none _ s f Hr Hb (g_l2_le f)).
  - by apply (busyF_none _ s f Hr Hb (g_late_le f)).
  - rewrite (at_some _ _ _ _ Hf). unfold f_late. by rewrite Hs.
Qed.
Lemma unsent_later s s' f n m i (one all : bool) : reach s → later s s' → unsent f n s → (one = true → mine1 f m s) → (all = true → mineA f i s) →
  unsent f n s' ∧ (one = true → mine1 f m s') ∧ (all = true → mineA f i s').
Proof.
  intros Hr Hl H1 H2 H3. apply (later_inv (λ x, unsent f n x ∧ (one = true → mine1 f m x) ∧ (all = true → mineA f i x))) with (s := s); try done.
  - intros x o Hx (A & B & C). split_and!; [by apply unsent_api|..]; intros; [apply mine1_api; auto; apply A|apply mineA_api; auto; apply A].
  - intros x t u rest s1 new Hx (A & B & C) Ht E Hthr. pose proof (late_new _ _ _ _ _ _ _ _ Hx A Ht E) as HN.
    split_and!; [by eapply unsent_step|..]; intros; [eapply mine1_step|eapply mineA_step]; eauto; apply A.
  - intros x Hx (A & B & C) _. split_and!; [by apply unsent_free|..]; intros; [apply mine1_free|apply mineA_free]; auto.
Qed.
Lemma e_other_elem f o s : EvSend f o ∈ log s → o ≠ OErrDisconnected → 0 < Σ (e_other f) (log s).
Proof.
  intros He Ho. pose proof (sum_elem (e_other f) _ _ He) as H. cbn in H. unfold isn in H. rewrite Nat.eqb_refl in H. destruct o; try done; lia.
Qed.
Lemma disc_only_fails s s' f x p k : reach s → later s s' → sfs s !! f = Some x → sf_st x = SNew p k → disc s →
  ∀ o, newly s s' (EvSend f o) → o = OErrDisconnected.
Proof.
  intros Hr Hl Hf Hs Hd o (l & H1 & H2).
  destruct (unsent_later s s' f _ 0 0 false false Hr Hl (unsent_start s f x p k Hr Hf Hs Hd) ltac:(done) ltac:(done)) as [(_ & _ & _ & _ & H) _].
  rewrite H1, sum_list_with_app in H.
  assert (o = OErrDisconnected ∨ o ≠ OErrDisconnected) as [?|Ho] by (destruct o; auto); [done|].
  pose proof (sum_elem (e_other f) _ _ H2) as H3. cbn in H3. unfold isn in H3. rewrite Nat.eqb_refl in H3. destruct o; try done; lia.
Qed.
Lemma at_le {A} (g : A → nat) l i : at_ g l i ≤ Σ g l.
Proof. destruct (l !! i) as [x|] eqn:E; [rewrite (at_some _ _ _ _ E); by apply (sum_lookup g) in E|]. rewrite at_ge; [lia|by apply lookup_ge_None]. Qed.
Lemma disc_never_accepted s s' f x u k : reach s → later s s' → sfs s !! f = Some x → sf_st x = SNew (PU u) k → disc s →
  times (accepted (um_id u)) s' = 0 ∧ blocked (um_id u) s' = 0.
Proof.
  intros Hr Hl Hf Hs Hd.
  assert (f_pre (um_id u) x = 1) as Hx by (unfold f_pre, is, isn; by rewrite Hs, Nat.eqb_refl).
  destruct (unsent_later s s' f _ (um_id u) 0 true false Hr Hl (unsent_start s f x _ k Hr Hf Hs Hd)) as (_ & H & _); [|done|].
  - intros _. pose proof (reach_A s Hr (um_id u)) as HA. pose proof (sum_lookup (f_pre (um_id u)) _ _ _ Hf) as H1.
    unfold lt1 in HA. destruct (Nat.ltb_spec (um_id u) (length (reps s))); [|lia]. split; [done|].
    rewrite (at_some _ _ _ _ Hf), Hx.
    assert (Σ (e_acc (um_id u)) (log s) ≤ Σ (e_pre (um_id u)) (log s)) by (apply sum_le; intros []; cbn; lia).
    assert (msum (g_snd (um_id u)) s ≤ msum (g_pre (um_id u)) s) by (apply msum_le; intros []; cbn; try lia; destruct p; lia). lia.
  - destruct (H eq_refl) as (_ & H2). pose proof (at_le (f_pre (um_id u)) (sfs s') f).
    assert (msum (g_own1 f (um_id u)) s' ≤ msum (g_snd (um_id u)) s').
    { apply msum_le. intros []; cbn; try lia; destruct p; unfold isn; repeat case_match; lia. }
    rewrite accepted_sum. assert (blocked (um_id u) s' = Σ (ccell (is (um_id u))) (cells1 s')) as -> by (apply cnt_sum; b2n). lia.
Qed.
Lemma disc_never_put s s' f x b k : reach s → later s s' → sfs s !! f = Some x → sf_st x = SNew (PB b) k → disc s →
  (∀ y qs, bm_id y = bm_id b → ¬ happened (EvBcast y qs) s') ∧ (∀ y, bm_id y = bm_id b → ¬ blocked_bcast s' y).
Proof.
  intros Hr Hl Hf Hs Hd.
  assert (f_pb (bm_id b) x = 1) as Hx by (unfold f_pb, ibm, isn; by rewrite Hs, Nat.eqb_refl).
  destruct (unsent_later s s' f _ 0 (bm_id b) false true Hr Hl (unsent_start s f x _ k Hr Hf Hs Hd)) as (_ & _ & H); [done| |].
  - intros _. pose proof (reach_ub s Hr (bm_id b)) as HA. pose proof (sum_lookup (f_pb (bm_id b)) _ _ _ Hf) as H1.
    unfold lt1 in HA. destruct (Nat.ltb_spec (bm_id b) (nbm s)); [|lia]. split; [done|].
    rewrite (at_some _ _ _ _ Hf), Hx. lia.
  - destruct (H eq_refl) as (_ & H2). pose proof (at_le (f_pb (bm_id b)) (sfs s') f).
    assert (msum (g_ownA f (bm_id b)) s' ≤ msum (g_pb (bm_id b)) s').
    { apply msum_le. intros []; cbn; try lia; destruct p; unfold isn; repeat case_match; lia. }
    split.
    + intros y qs Hy He. pose proof (sum_elem (e_bc (bm_id b)) _ _ He) as H3. cbn in H3. unfold ibm, isn in H3. rewrite Hy, Nat.eqb_refl in H3. lia.
    + intros y Hy (c & w & Hc). pose proof (sum_lookup (bcell (ibm (bm_id b))) _ _ _ Hc) as H3. cbn in H3.
      assert (ibm (bm_id b) y = 1) by (unfold ibm, isn; by rewrite Hy, Nat.eqb_refl). lia.
Qed.
Lemma err_disc s f : reach s → happened (EvSend f OErrDisconnected) s → disc s.
Proof. intros Hr He. destruct (reach_DC s Hr) as [H _]. apply H. pose proof (sum_elem e_serrs _ _ He) as H1. cbn in H1. lia. Qed.

(** ** Broadcasts *)
Lemma sum_filter (g : ev → nat) (p : ev → bool) l : (∀ e, p e = false → g e = 0) → Σ g (List.filter p l) = Σ g l.
Proof. intros H. induction l as [|e l IH]; simpl; [done|]. destruct (p e) eqn:E; simpl; [lia|]. rewrite (H e E). lia. Qed.
Lemma ebc_blog i s : Σ (e_bc i) (blog s) = Σ (e_bc i) (log s).
Proof. unfold blog. apply sum_filter. by intros []. Qed.
Lemma live_kept s b : reach s → bq_live s b = true ↔ kept_queue s b.
Proof.
  intros Hr. rewrite blive_at, Nat.ltb_lt, (reach_bq s Hr b). split.
  - intros H. destruct (decide (0 < Σ (h_own b) (hols s))) as [Hp|Hp].
    + left. apply sum_pos in Hp as (h & [r Hh]%elem_of_list_lookup & Hw). exists r, h. unfold h_own in Hw.
      destruct (h_st h) eqn:E; try lia; destruct (Nat.eqb_spec (h_bq h) b); try lia; done.
    + right. assert (0 < msum (g_bq b) s) as (t & p & u & Ht & Hu & Hg)%msum_pos by lia. exists t, p. split; [done|].
      destruct u; cbn in Hg; try lia. destruct (Nat.eqb_spec b0 b); [by subst|lia].
  - intros [(r & h & Hh & Hs & Hb)|(t & p & Ht & Hu)].
    + pose proof (sum_lookup (h_own b) _ _ _ Hh) as H. unfold h_own in H at 1. rewrite Hb, Nat.eqb_refl in H. destruct (h_st h); try done; lia.
    + pose proof (sum_elem (g_bq b) _ _ Hu) as H. apply elem_of_list_lookup_2 in Ht. pose proof (sum_elem (Σ (g_bq b)) _ _ Ht) as H2.
      cbn in H. rewrite Nat.eqb_refl in H. unfold msum. lia.
Qed.
Lemma owned_live s b : reach s → owned_queue s b → bq_live s b = true.
Proof. intros Hr H. apply live_kept; [done|by left]. Qed.
Lemma owned_rxc s b : reach s → owned_queue s b → 0 < rxc s.
Proof.
  intros Hr (r & h & Hh & Hs & _). pose proof (reach_rx s Hr) as HR. unfold InvRx in HR. pose proof (sum_lookup h_rx _ _ _ Hh) as H.
  unfold h_rx in H at 1. destruct (h_st h); try done; lia.
Qed.
Lemma owned_bqs s b : reach s → owned_queue s b → b ∈ bqs s.
Proof.
  intros Hr H. destruct (reach_bs s Hr) as (_ & B & _). apply isn_elem. apply B; [by apply owned_live|by eapply owned_rxc].
Qed.
Lemma backlog_get s b : backlog s b = bq_get s b.
Proof. done. Qed.
Lemma copies_sum i b s : copies i b s = bsum (ibm i) s b.
Proof. unfold copies. rewrite backlog_get. unfold bsum. apply cnt_sum. intros []; unfold ibm, isn; cbn; by case_match. Qed.
Lemma got_sum i b s : got i b s = Σ (e_brc (hbqs s) b i) (blog s).
Proof.
  unfold blog. rewrite sum_filter by (intros [| | | |r []| | | | | | | | | | | |]; done). unfold got, times. apply cnt_sum.
  intros e. destruct e as [| | | |r [|x|]| | | | | | | | | | | |]; try done. cbn. unfold hbqs. rewrite list_lookup_fmap.
  destruct (hols s !! r) as [h|]; cbn; [|by rewrite andb_false_r]. unfold ibm, isn. by destruct (bm_id x =? i), (h_bq h =? b).
Qed.
Lemma bcast_once s i : reach s → times (broadcasted i) s ≤ 1.
Proof.
  intros Hr. unfold times. rewrite (cnt_sum (e_bc i)) by (intros []; try done; cbn; unfold ibm, isn; by case_match).
  pose proof (reach_ub s Hr i). pose proof (lt1_le i (nbm s)). lia.
Qed.
Lemma ibm_self x : ibm (bm_id x) x = 1.
Proof. unfold ibm, isn. by rewrite Nat.eqb_refl. Qed.
Lemma bcast_put s x qs b : reach s → happened (EvBcast x qs) s →
  (b ∈ qs → Σ (e_bput b (bm_id x)) (blog s) = 1) ∧ (b ∉ qs → Σ (e_bput b (bm_id x)) (blog s) = 0).
Proof.
  intros Hr He. destruct (reach_cp s Hr b (bm_id x)) as (_ & _ & _ & _ & C5). rewrite ebc_blog in C5.
  pose proof (reach_ub s Hr (bm_id x)) as HU. pose proof (lt1_le (bm_id x) (nbm s)) as H1.
  assert (EvBcast x qs ∈ blog s) as He'.
  { unfold blog. rewrite elem_of_list_In, filter_In, <-elem_of_list_In. done. }
  split.
  - intros Hb. pose proof (sum_elem (e_bput b (bm_id x)) _ _ He') as H. cbn in H. rewrite (ibm_self x) in H.
    apply isn_elem in Hb. lia.
  - intros Hb. apply sum_zero. intros e Hin. destruct e as [| | |y l| | | | | | | | | | | | |]; try done. cbn. unfold ibm. unfold isn at 1.
    destruct (Nat.eqb_spec (bm_id y) (bm_id x)) as [Hid|]; [|done].
    assert (∀ a b : ev, a = b ∨ a ≠ b) as Hdec.
    { intros a c. assert (Decision (a = c)) as []; [|by left|by right]. unfold Decision. repeat decide equality. }
    destruct (Hdec (EvBcast y l) (EvBcast x qs)) as [[= -> ->]|Hn].
    + destruct (decide (0 < Σ (isn b) qs)) as [?%isn_elem|]; [done|lia].
    + pose proof (sum_two_elem (e_bc (bm_id x)) _ _ _ Hin He' Hn) as H. rewrite ebc_blog in H. cbn in H. unfold ibm, isn in H.
      rewrite Hid, Nat.eqb_refl in H. lia.
Qed.
Lemma bcast_copies s x qs b : reach s → happened (EvBcast x qs) s →
  (b ∈ qs → copies (bm_id x) b s + got (bm_id x) b s ≤ 1 ∧ (owned_queue s b → copies (bm_id x) b s + got (bm_id x) b s = 1)) ∧
  (b ∉ qs → copies (bm_id x) b s + got (bm_id x) b s = 0).
Proof.
  intros Hr He. destruct (bcast_put s x qs b Hr He) as [P1 P2]. rewrite copies_sum, got_sum.
  destruct (reach_cp s Hr b (bm_id x)) as (_ & _ & C3 & C4 & _). split.
  - intros Hb. specialize (P1 Hb). split; [lia|]. intros Ho. rewrite <-P1. by apply C4, owned_live.
  - intros Hb. specialize (P2 Hb). lia.
Qed.
(** Which queues a broadcast is put into. *)
Lemma blog_app s s' k : log s' = k ++ log s → blog s' = List.filter ebr k ++ blog s.
Proof. unfold blog. intros ->. apply List.filter_app. Qed.
Lemma in_ebr k x qs : EvBcast x qs ∈ k → EvBcast x qs ∈ List.filter ebr k.
Proof. rewrite !elem_of_list_In, filter_In. done. Qed.
Lemma bcast_live u s s1 new k x qs : reach s → (∃ t rest, thr s !! t = Some (u :: rest)) → exec u s = (s1, new) → log s1 = k ++ log s → EvBcast x qs ∈ k → qs = live s.
Proof.
  intros Hr (t & rest & Ht) E Hk Hin. apply blog_app in Hk. apply in_ebr in Hin.
  assert (∀ l, blog s1 = l ++ blog s → EvBcast x qs ∈ l) as HL.
  { intros l Hl. rewrite Hl in Hk. apply app_inv_tail in Hk. by subst l. }
  destruct (reach_bs s Hr) as (B1 & B2 & B3).
  destruct (bexec u s s1 new E) as [S|[[b ->]|[->|[->|[(f & m & k0 & -> & _ & ->)|[->|(r & h & m & Hu & Hh & -> & Hp)]]]]]].
  - destruct S as (_ & _ & _ & _ & S & _). by specialize (HL [] S) as ?%elem_of_nil.
  - assert (blog s1 = blog s) as S. { cbn [exec] in E. case_match; injection E as <- <-; done. } by specialize (HL [] S) as ?%elem_of_nil.
  - assert (blog s1 = blog s) as S. { cbn [exec] in E. injection E as <- <-; done. } by specialize (HL [] S) as ?%elem_of_nil.
  - assert (blog s1 = blog s) as S. { cbn [exec] in E. injection E as <- <-. apply rx_shutdown_blog. } by specialize (HL [] S) as ?%elem_of_nil.
  - specialize (HL [EvBcast m (live s)] (sb_blog m s)) as [= -> ->]%elem_of_list_singleton. done.
  - cbn [exec] in E. injection E as <- <-. specialize (HL [_] (sb_blog _ _)) as [= -> ->]%elem_of_list_singleton. done.
  - destruct (pop_eff (h_bq h) s m) as (y & _ & _ & S & _); [by eapply holder_lt|by apply bqs_lt|done|].
    assert (∀ z, blog (deliver r (ToAll m) z) = EvRecv r (ToAll m) :: blog z) as HD.
    { intros z. unfold deliver, emit, blog. prj. cbn. by autorewrite with fr_log. }
    rewrite HD, S in HL. specialize (HL (EvRecv r (ToAll m) :: match y with Some m2 => [EvBcast m2 (live s)] | None => [] end) eq_refl).
    apply elem_of_cons in HL as [|HL]; [done|]. destruct y; [by apply elem_of_list_singleton in HL as [= -> ->]|by apply elem_of_nil in HL].
Qed.
Lemma collect_logx x : ∃ k, log (collect x) = k ++ log x ∧ (∀ y qs, EvBcast y qs ∉ k) .
Proof.
  unfold collect. destruct (chan_owned x).
  - exists []. split; [done|]. by intros ?? ?%elem_of_nil.
  - destruct (free_evs x) as (k & Hk & He). exists k. split; [done|]. intros y qs Hy. destruct (He _ Hy) as (? & ? & H & _). by inversion H.
Qed.
Lemma bcast_reaches s o x qs b : reach s → newly s (step s o) (EvBcast x qs) → owned_queue s b → b ∈ qs.
Proof.
  intros Hr (k & Hk & Hin) Ho. unfold between in Hk.
  assert (b ∈ live s) as HB by (apply elem_live; split; [by apply owned_bqs|by apply owned_live]).
  assert (∀ s2 l, log s2 = l ++ log s → step s o = collect s2 → EvBcast x qs ∈ l) as HX.
  { intros s2 l Hl Hs. destruct (collect_logx s2) as (k2 & Hk2 & Hn). rewrite Hs, Hk2, Hl, app_assoc in Hk. apply app_inv_tail in Hk. subst k.
    apply elem_of_app in Hin as [Hin|]; [by apply Hn in Hin|done]. }
  destruct o as [t| | | | | | | | | | | | | | | | | | | | | | | | | | |].
  2-28: match type of Hk with log (step _ ?o) = _ => destruct (api_evs o s) as [Ha|(e & Ha & Hs)];
      [by specialize (HX (api o s) [] Ha eq_refl) as ?%elem_of_nil|specialize (HX (api o s) [e] Ha eq_refl) as <-%elem_of_list_singleton; destruct Hs] end.
  unfold step, do_step in HX. destruct (thr s !! t) as [[|u rest]|] eqn:Ht; try by specialize (HX s [] eq_refl eq_refl) as ?%elem_of_nil.
  destruct (exec u s) as [s1 new] eqn:E. destruct (exec_logx _ _ _ _ E) as [l Hl]. specialize (HX (set_thr (<[t:=new ++ rest]> (thr s1)) s1) l Hl eq_refl).
  rewrite (bcast_live u s s1 new l x qs); eauto.
Qed.

(** Queues created later. *)
Lemma bcast_not_later s s' x qs b : reach s → later s s' → happened (EvBcast x qs) s → bqueues s !! b = None →
  copies (bm_id x) b s' = 0 ∧ got (bm_id x) b s' = 0.
Proof.
  intros Hr Hl He Hb. pose proof (later_reach s s' Hr Hl) as Hr'.
  assert (happened (EvBcast x qs) s') as He' by (eapply logx_in, He; by apply log_later).
  assert (b ∉ qs) as Hq.
  { intros Hin. apply lookup_ge_None in Hb. destruct (reach_cp s Hr b (bm_id x)) as (_ & C & _). specialize (C Hb).
    destruct (bcast_put s x qs b Hr He) as [P _]. specialize (P Hin). lia. }
  destruct (bcast_copies s' x qs b Hr' He') as [_ H]. specialize (H Hq). lia.
Qed.
Lemma clone_new s t : reach s → next_action s t UCloneReg →
  hols (step s (Step t)) = hols s ++ [HO (length (bqueues s)) HMailbox true 0] ∧ bqueues s !! length (bqueues s) = None.
Proof.
  intros Hr [rest Ht]. split; [|by apply lookup_ge_None]. unfold step, do_step. rewrite Ht. cbn [exec]. unfold collect.
  match goal with |- context [chan_owned ?x] => assert (chan_owned x = true) as -> end; [|done].
  eapply (owned_hol _ (length (hols s))); [prj; by rewrite lookup_app_r, Nat.sub_diag|done].
Qed.

(** ** Stop signals *)
Lemma stop_first s t r h i : reach s → next_action s t (UTryRecv r) → hols s !! r = Some h → BStop i ∈ backlog s (h_bq h) →
  ∃ j, newly s (step s (Step t)) (EvRecv r (ToAll (BStop j))).
Proof.
  intros Hr Hn Hh Hi. assert (∃ a, newly s (step s (Step t)) (EvRecv r a)) as [a Ha].
  { apply (recv_ready s t r h Hr Hn Hh). right; left. intros E. rewrite E in Hi. by apply elem_of_nil in Hi. }
  pose proof (recv_top s t r h a Hr Hn Hh Ha) as Hm. destruct a as [m|x|]; cbn in Hm.
  - destruct Hm as (_ & _ & H). by specialize (H _ Hi).
  - destruct Hm as (_ & H & _). specialize (H _ Hi). destruct x; [done|]. eauto.
  - destruct Hm as (_ & H & _). rewrite H in Hi. by apply elem_of_nil in Hi.
Qed.
Lemma stop_put s t b : reach s → next_action s t UStopAll → owned_queue s b →
  copies (nbm s) b (step s (Step t)) = 1 ∧ BStop (nbm s) ∈ backlog (step s (Step t)) b.
Proof.
  intros Hr [rest Ht] Ho. destruct (reach_bs s Hr) as (B1 & B2 & B3).
  assert (b ∈ live s) as HB by (apply elem_live; split; [by apply owned_bqs|by apply owned_live]).
  set (s0 := set_nbm (S (nbm s)) s).
  assert (∀ c, bsum c (step s (Step t)) b = bsum c s b + c (BStop (nbm s))) as HS.
  { intros c. unfold step, do_step. rewrite Ht. cbn [exec]. fold s0. unfold collect.
    match goal with |- context [chan_owned ?x] => assert (chan_owned x = true) as -> end.
    { destruct Ho as (r & h & Hh & Hs & _). eapply (owned_hol _ r); [|done]. prj. by rewrite sb_hols. }
    assert (∀ a z, bsum c (set_thr a z) b = bsum c z b) as -> by done.
    rewrite sb_sum; [|by apply bqs_lt]. assert (Σ (isn b) (live s0) = 1) as ->; [|assert (bsum c s0 b = bsum c s b) as -> by done; lia].
    assert (live s0 = live s) as -> by done. pose proof (live_1 s b B1). apply isn_elem in HB. lia. }
  split.
  - rewrite copies_sum, HS. assert (ibm (nbm s) (BStop (nbm s)) = 1) as -> by exact (ibm_self (BStop (nbm s))). assert (bsum (ibm (nbm s)) s b = 0) as ->; [|done].
    destruct (reach_cp s Hr b (nbm s)) as (_ & _ & C3 & _ & C5). rewrite ebc_blog in C5. pose proof (reach_ub s Hr (nbm s)) as HU.
    unfold lt1 in HU. rewrite Nat.ltb_irrefl in HU. lia.
  - specialize (HS (λ m, match m with BStop j => isn (nbm s) j | _ => 0 end)). cbn in HS. unfold isn in HS at 3. rewrite Nat.eqb_refl in HS.
    unfold bsum in HS at 1. assert (0 < Σ (λ m, match m with BStop j => isn (nbm s) j | _ => 0 end) (bq_get (step s (Step t)) b)) as (m & Hm & Hp)%sum_pos by lia.
    destruct m as [|j]; [lia|]. unfold isn in Hp. destruct (Nat.eqb_spec j (nbm s)); [by subst|lia].
Qed.
Lemma stop_breaks s r b k w i : hols s !! r = Some (HO b (HDispNew (ToAll (BStop i))) k w) →
  ∃ n, newly s (run s (ARun r :: replicate n (Step (length (thr s))))) (EvFlow r true).
Proof.
  intros Hh. set (s1 := set_hols (<[r := HO b HGone k w]> (hols s)) s).
  assert (thr (call (rx_drop b ++ [UFlow r true]) s1) !! length (thr s) = Some (URxDec :: [UBqRel b; UFlow r true])) as H0 by by apply call_lookup.
  assert (∀ z, thr z !! length (thr s) = Some [UBqRel b; UFlow r true] → will z (length (thr s)) (EvFlow r true)) as HW.
  { intros z Hz. eapply will_more; [exact Hz|done|]. intros z'. cbn [exec].
    assert (snd (match bqueues z !! b with Some q => (set_bqueues (<[b:=BQ (bq_refs q - 1) (if bq_refs q =? 1 then [] else bq_heap q)]> (bqueues z)) z, []) | None => (z, []) end) = @nil micro) as -> by by case_match.
    cbn [app]. intros Hz'. exists 1. by eapply yields_now. }
  assert (will (call (rx_drop b ++ [UFlow r true]) s1) (length (thr s)) (EvFlow r true)) as [n (l & H1 & H2)].
  { eapply will_more; [exact H0|done|]. intros z. cbn [exec snd]. destruct (rxc _ =? 1); cbn [app]; [|apply HW].
    intros Hz. eapply will_more; [exact Hz|done|]. intros z'. cbn [exec snd app]. apply HW. }
  exists n, l. split; [|done]. unfold between in *. unfold run in *. cbn [fold_left].
  assert (step s (ARun r) = call (rx_drop b ++ [UFlow r true]) s1) as ->; [|by rewrite H1].
  unfold step. cbn [api]. rewrite Hh. by eapply owned_busy.
Qed.

(** ** Capacity of broadcasts *)
Lemma ordin_cnt s b : cnt ordinary (backlog s b) = bsum ordin s b.
Proof. rewrite backlog_get. unfold bsum. apply cnt_sum. by intros []. Qed.
Lemma bcast_bound s b n : reach s → cap s = Some n → cnt ordinary (backlog s b) ≤ n.
Proof. intros Hr Hc. rewrite ordin_cnt. destruct (reach_T s Hr) as [_ T]. by apply T. Qed.
Lemma len_bound s b : reach s → owned_queue s b → length (uq s) + length (backlog s b) ≤ chan_len s.
Proof.
  intros Hr Ho. unfold chan_len. destruct (reach_T s Hr) as [T _]. specialize (T b (owned_bqs s b Hr Ho) (owned_live s b Hr Ho)).
  unfold blen in T. rewrite backlog_get. lia.
Qed.
Lemma lag_run s ops : reach s → InvL s → keeps s ops → no_void_broadcast (run s ops) → InvL (run s ops).
Proof.
  revert s; induction ops as [|o ops IH]; intros s Hr HL; [done|]. cbn [keeps]. intros [Hd Hk] Hn.
  change (run s (o :: ops)) with (run (step s o) ops) in *. apply IH; try done; [by apply reach_one|].
  assert (∀ x, reach x → InvL x → InvL (collect x)) as Hc.
  { intros x Hx Ix. unfold collect. destruct (chan_owned x) eqn:E; [done|by apply L_free]. }
  unfold step in *. destruct o; apply Hc; try (by apply reach_api); try (by apply L_api); try (by apply reach_step).
  unfold do_step in *. destruct (thr s !! t) as [[|u rest]|] eqn:Ht; try done.
  destruct (exec u s) as [s1 new] eqn:E.
  assert (∀ x, InvL x → InvL (set_thr (<[t:=new ++ rest]> (thr s1)) x)) as HT.
  { intros x [H1 H2]. split; [exact H1|exact H2]. }
  apply HT. eapply (L_exec s t u rest); try done.
  - intros b q -> Hb Hq. destruct (bq_heap q) eqn:Eh; [done|]. exfalso. apply Hd. exists t, b, q. split_and!; try done; [by exists rest|by rewrite Eh].
  - intros x Hx. apply (Hn x). eapply logx_in; [apply run_logx|]. destruct (collect_logx (set_thr (<[t:=new ++ rest]> (thr s1)) s1)) as (k & -> & _).
    apply elem_of_app. by right.
Qed.
Lemma lag_reach c ops : keeps (init c) ops → no_void_broadcast (run (init c) ops) → InvL (run (init c) ops).
Proof. intros. apply lag_run; try done; [apply reach_init|apply L_init]. Qed.
Lemma blocked_lag s x b0 : reach s → InvL s → blocked_bcast s x → owned_queue s b0 →
  ∃ n b, cap s = Some n ∧ kept_queue s b ∧ n ≤ length (backlog s b).
Proof.
  intros Hr [L1 L2] (c & w & Hc) Ho. pose proof (owned_rxc s b0 Hr Ho) as Hx. specialize (L1 Hx). specialize (L2 Hx c).
  rewrite (at_some _ _ _ _ Hc) in L2. specialize (L2 ltac:(cbn; lia)). unfold broadcast_full in L2. destruct (cap s) as [n|] eqn:En; [|done].
  apply Nat.leb_le in L2. destruct (longest_max s) as [H0|(b & Hb & Hl & Hm)].
  - exists n, b0. split_and!; [done|by left|lia].
  - exists n, b. split_and!; [done|by apply live_kept|]. unfold blen in Hm. rewrite backlog_get. lia.
Qed.
Lemma len_exact s b0 : reach s → InvL s → owned_queue s b0 →
  ∃ b, kept_queue s b ∧ chan_len s = length (uq s) + length (backlog s b) ∧ ∀ b', kept_queue s b' → length (backlog s b') ≤ length (backlog s b).
Proof.
  intros Hr [L1 L2] Ho. pose proof (owned_rxc s b0 Hr Ho) as Hx. specialize (L1 Hx). destruct (reach_T s Hr) as [T _].
  assert (∀ b', kept_queue s b' → length (backlog s b') ≤ tail s) as HT.
  { intros b' Hb'. apply live_kept in Hb'; [|done]. rewrite backlog_get. apply T; [|done]. destruct (reach_bs s Hr) as (_ & B & _). apply isn_elem. by apply B. }
  assert (∃ b, kept_queue s b ∧ length (backlog s b) = tail s) as (b & Hb & Hl).
  { destruct (longest_max s) as [H0|(b & Hb & Hl & Hm)].
    - exists b0. split; [by left|]. specialize (HT b0 ltac:(by left)). lia.
    - exists b. assert (kept_queue s b) as Hk by by apply live_kept. split; [done|]. specialize (HT b Hk). unfold blen in Hm. rewrite backlog_get in *. lia. }
  exists b. split_and!; [done|unfold chan_len; lia|]. intros b' Hb'. rewrite Hl. by apply HT.
Qed.
