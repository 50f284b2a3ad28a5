(** Proofs of the properties about waiting, counts and connection. *)
From stdpp Require Import base numbers list list_numbers.
From Coq Require Import Lia.
From Verif Require Import Prio Heap State Model HeapProofs Frame Lib InvBusy InvCount Effects InvMsg InvMsg2
  InvHeap InvOne InvOne2 InvDisc InvWait InvWait2 InvFut InvCell WaitSpec InvWs InvBlk Mono InvSend InvErr Spec Bridge.

(** ** Waiting *)
Lemma blocked_full s m : reach s → 0 < blocked m s → ∃ n, cap s = Some n ∧ n ≤ length (uq s).
Proof.
  intros Hr (x & Hx & Hp)%cnt_pos_inv. apply elem_of_list_lookup in Hx as [c Hc].
  destruct (reach_ws s Hr) as (_ & _ & H). specialize (H c).
  rewrite (at_some _ _ _ _ Hc) in H. destruct x as [[] []]; try done. cbn in H. specialize (H ltac:(lia)).
  unfold unicast_full in H. destruct (cap s) as [n|]; [|done]. exists n. split; [done|]. by apply Nat.leb_le.
Qed.

Lemma msum_pos g s : 0 < msum g s → ∃ t p u, thr s !! t = Some p ∧ u ∈ p ∧ 0 < g u.
Proof.
  unfold msum. intros (p & [t Ht]%elem_of_list_lookup & Hp)%sum_pos. apply sum_pos in Hp as (u & Hu & Hg). eauto 10.
Qed.

Lemma idle_cases s r : reach s → idle s r →
  being_notified s r ∨
  (0 < txc s ∨ 0 < msum g_ts s) ∧ uq s = [] ∧ ∀ h, hols s !! r = Some h → backlog s (h_bq h) = [].
Proof.
  intros Hr (h & o & rx & w & Hh & Hst & Ho).
  destruct (reach_own s Hr o) as [H1 _]. destruct (reach_handle s Hr o) as [_ H2].
  assert (at_ (h_wait o) (hols s) r = 1) as Hw.
  { rewrite (at_some _ _ _ _ Hh). unfold h_wait. rewrite Hst. unfold isn. by rewrite Nat.eqb_refl. }
  pose proof (at_le_sum (h_wait o) (hols s) r) as Hle.
  rewrite (at_some _ _ _ _ Ho) in H1; rewrite (at_some _ _ _ _ Ho) in H2; destruct rx; cbn in H1, H2; [|lia].
  destruct (decide (0 < msum (g_no o) s)) as [Hn|Hn].
  { left. apply msum_pos in Hn as (t & p & u & Ht & Hu & Hg). destruct u; cbn in Hg; try lia.
    unfold isn in Hg. destruct (Nat.eqb_spec o0 o); [subst|lia]. exists h, o, t, p. done. }
  right. assert (0 < Σ (isn o) (wrx s)) as Hin by lia.
  split_and!.
  - destruct (reach_ts s Hr) as [_ Hts]. destruct (decide (0 < txc s)); [by left|].
    destruct Hts as [E|]; [lia| |by right]. rewrite E in Hin. cbn in Hin. lia.
  - apply (reach_w1 s Hr o Hin). rewrite (at_some _ _ _ _ Ho). cbn. lia.
  - intros h' Hh'. rewrite Hh in Hh'. injection Hh' as <-.
    pose proof (reach_w2 s Hr o r Hin ltac:(lia)) as Hb. unfold blen, bq_get, hbq in Hb. rewrite Hh in Hb.
    unfold backlog. destruct (bqueues s !! h_bq h) as [q|]; [|done]. by destruct (bq_heap q).
Qed.

Lemma idle_empty s r h : reach s → idle s r → ¬ being_notified s r → hols s !! r = Some h →
  uq s = [] ∧ backlog s (h_bq h) = [].
Proof. intros Hr Hi Hn Hh. destruct (idle_cases s r Hr Hi) as [|(_ & H1 & H2)]; [done|]. auto. Qed.

Lemma quiet_not_notified s r : quiet s → ¬ being_notified s r.
Proof. intros Hq (h & o & t & p & _ & _ & Ht & Hin). rewrite (Hq t p Ht) in Hin. by apply elem_of_nil in Hin. Qed.

Lemma no_standoff s r m : reach s → cap s ≠ Some 0 → 0 < blocked m s → idle s r → being_notified s r.
Proof.
  intros Hr Hc Hb Hi. destruct (idle_cases s r Hr Hi) as [|(_ & H1 & H2)]; [done|].
  apply blocked_full in Hb as (n & Hn & Hl); [|done]. rewrite H1 in Hl. cbn in Hl. destruct n; [done|lia].
Qed.

Lemma shutdown_idle s r : reach s → quiet s → txc s = 0 → ¬ idle s r.
Proof.
  intros Hr Hq H0 Hi. destruct (idle_cases s r Hr Hi) as [H|([H|H] & _)].
  - by apply quiet_not_notified in H.
  - lia.
  - rewrite quiet_msum in H by done. lia.
Qed.

(** ** Counts *)
Lemma strong_count s : reach s → txc s = strong_addresses s + strong_futures s + strong_calls s.
Proof.
  intros Hr. rewrite (reach_tx s Hr).
  assert (strong_addresses s = Σ a_tx (addrs s)) as -> by (apply cnt_sum; b2n).
  assert (strong_futures s = Σ f_tx (sfs s)) as -> by (apply cnt_sum; b2n).
  assert (strong_calls s = msum g_tx s) as -> by (apply todo_sum; b2n). done.
Qed.
Lemma mailbox_count s : reach s → rxc s = mailbox_objects s + mailbox_calls s.
Proof.
  intros Hr. rewrite (reach_rx s Hr).
  assert (mailbox_objects s = Σ h_rx (hols s)) as -> by (apply cnt_sum; b2n).
  assert (mailbox_calls s = msum g_rx s) as -> by (apply todo_sum; b2n). done.
Qed.
Lemma tx_no_underflow s t : reach s → next_action s t UTxDec → 1 ≤ txc s.
Proof. intros Hr [rest Ht]. rewrite (reach_tx s Hr). pose proof (msum_head g_tx s t _ _ Ht). cbn in *. lia. Qed.
Lemma rx_no_underflow s t : reach s → next_action s t URxDec → 1 ≤ rxc s.
Proof. intros Hr [rest Ht]. rewrite (reach_rx s Hr). pose proof (msum_head g_rx s t _ _ Ht). cbn in *. lia. Qed.

(** ** Connection *)
Lemma disconnected_later s s' : reach s → later s s' → ¬ is_conn s → ¬ is_conn s'.
Proof.
  intros Hr [l ->] Hc Hc'. unfold is_conn in *. destruct (decide (txc s = 0)) as [H|].
  - pose proof (txc0_run s l Hr H). lia.
  - pose proof (rxc0_run s l Hr ltac:(lia)). lia.
Qed.

Definition e_ct (e : ev) : nat := match e with EvConn _ true => 1 | _ => 0 end.
Definition g_ld2 (u : micro) : nat := match u with UConnLd2 _ => 1 | _ => 0 end.
Lemma api_ct o s : Σ e_ct (log (api o s)) = Σ e_ct (log s) ∧ msum g_ld2 (api o s) = msum g_ld2 s.
Proof.
  do_api o ltac:(autorewrite with fr_log).
Qed.
Lemma ct_src u s s1 new : exec u s = (s1, new) →
  Σ e_ct (log s1) ≤ Σ e_ct (log s) + (if txc s =? 0 then 0 else g_ld2 u) ∧
  Σ g_ld2 new ≤ (if rxc s =? 0 then 0 else 1).
Proof.
  intros E. exec_cases u E; rewrite ?sum_list_with_app; try (rewrite sum_notify by done);
    unfold rx_drop, payload_drop, amsg_drop, tx_drop in *; repeat (progress (prj; autorewrite with fr_log)); cbn -[Nat.eqb]; try lia.
  all: rewrite ?pop_broadcast_logm, ?rx_shutdown_log0 by done.
  all: try (destruct (pop_unicast_spec s) as (x & _ & _ & ->); destruct x; cbn; lia).
  all: repeat match goal with |- context [Σ _ (match ?x with _ => _ end)] => destruct x end; cbn -[Nat.eqb]; try lia.
  all: destruct (txc s =? 0); cbn; try lia.
  all: rewrite ?Em; lia.
Qed.

Lemma no_connected_again s s' : reach s → later s s' → ¬ is_conn s → msum g_ld2 s = 0 →
  Σ e_ct (log s') = Σ e_ct (log s).
Proof.
  intros Hr Hl Hc H2. set (n := Σ e_ct (log s)).
  assert ((txc s' = 0 ∨ rxc s' = 0 ∧ msum g_ld2 s' = 0) ∧ Σ e_ct (log s') = n) as [_ ?]; [|done].
  revert s s' Hr Hl Hc H2 n. intros s s' Hr Hl Hc H2 n.
  refine (later_inv (λ s, (txc s = 0 ∨ rxc s = 0 ∧ msum g_ld2 s = 0) ∧ Σ e_ct (log s) = n) _ _ _ s s' Hr Hl _).
  - intros x o Hx [H Hn]. destruct (api_ct o x) as [-> ->]. split; [|done].
    destruct H as [H|[H ?]]; [left; by apply txc0_api|right; split; [by apply rxc0_api|done]].
  - intros x t u rest s1 new Hx [H Hn] Ht E Hthr. destruct (ct_src _ _ _ _ E) as [Q1 Q2].
    pose proof (msum_step g_ld2 x t u rest new s1 Ht Hthr) as HM.
    pose proof (msum_head g_ld2 x t u rest Ht) as HH. revert HM.
    generalize (msum g_ld2 (set_thr (<[t:=new ++ rest]> (thr s1)) s1)). intros k HM. prj.
    pose proof (logx_sum e_ct _ _ (exec_logx _ _ _ _ E)) as HL.
    destruct H as [H|[H H3]].
    + pose proof (txc0_exec x u H) as H0. rewrite E in H0. cbn in H0. split; [by left|]. rewrite H in Q1. cbn in Q1. lia.
    + pose proof (rxc0_exec x u H) as H0. rewrite E in H0. cbn in H0. rewrite H in Q2. cbn in Q2.
      split; [right; split; [done|lia]|]. destruct (txc x =? 0); lia.
  - intros x Hx [H Hn] Ho. rewrite (msum_eq g_ld2 x (free_chan x)) by (by autorewrite with fr_thr).
    autorewrite with fr_txc fr_rxc. split; [done|]. by rewrite free_log0.
  - split; [|done]. unfold is_conn in Hc. destruct (decide (txc s = 0)); [by left|right; split; [lia|done]].
Qed.

(** Upgrading. *)
Lemma owned_addr s a x : addrs s !! a = Some x → ad_live x = true → chan_owned s = true.
Proof.
  intros Ha Hl. unfold chan_owned. assert (existsb ad_live (addrs s) = true) as ->; [|done].
  apply existsb_exists. exists x. split; [|done]. apply elem_of_list_In. by eapply elem_of_list_lookup_2.
Qed.
Lemma upgrade_spec s a : reach s → addrs s !! a = Some (AD false false true) →
  (0 < strong_addresses s + strong_futures s + strong_calls s →
    log (step s (AUpgrade a)) = EvUpgrade a (Some (length (addrs s))) :: log s ∧
    addrs (step s (AUpgrade a)) = addrs s ++ [AD true false true] ∧ txc (step s (AUpgrade a)) = S (txc s)) ∧
  (strong_addresses s + strong_futures s + strong_calls s = 0 →
    log (step s (AUpgrade a)) = EvUpgrade a None :: log s ∧ addrs (step s (AUpgrade a)) = addrs s ∧ txc (step s (AUpgrade a)) = 0).
Proof.
  intros Hr Ha. rewrite <-strong_count by done. unfold step. cbn [api]. rewrite Ha.
  destruct (Nat.eqb_spec (txc s) 0) as [H0|H0].
  - unfold collect. erewrite owned_addr; [|exact Ha|done]. split; [lia|]. done.
  - unfold collect. rewrite (owned_addr _ a (AD false false true)); [| |done].
    + split; [|lia]. done.
    + cbn. rewrite lookup_app_l; [done|]. by eapply lookup_lt_Some.
Qed.
