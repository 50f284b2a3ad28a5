(** End of the last mailbox (C27), requeueing (C04), stop_all (C43). *)
From stdpp Require Import base numbers list list_numbers.
From Coq Require Import Lia.
From Verif Require Import Prio Heap State Model HeapProofs Frame Lib InvBusy InvCount Effects InvMsg InvMsg2
  InvHeap InvOne InvOne2 InvDisc InvWait InvWait2 InvFut InvCell WaitSpec InvWs InvBlk Mono InvSend InvErr Events InvSmall InvRep InvPoll InvBc InvLag InvConn InvEnd Spec Bridge
  FinalA FinalB FinalC FinalE FinalF.

Lemma ended_later s s' : reach s → later s s' → ended s → ended s'.
Proof.
  apply (later_inv ended); [intros; by apply ended_api|intros; by eapply ended_step|intros; by apply ended_free].
Qed.
Lemma past_check s : sends_past_check s = msum g_ls s.
Proof. unfold sends_past_check. apply todo_sum. b2n. Qed.
Lemma shutdown_later s t s' : reach s → next_action s t URxShutdown → sends_past_check s = 0 → later (step s (Step t)) s' → ended s'.
Proof.
  intros Hr [rest Ht] Hp Hl. rewrite past_check in Hp. eapply ended_later; [|exact Hl|]; [by apply reach_one|].
  unfold step, collect. pose proof (shutdown_ended s t rest Hr Ht Hp) as He. case_match; [done|by apply ended_free].
Qed.
Lemma rxc_gone s : reach s → rxc s = 0 → ∀ r h, hols s !! r = Some h → h_st h = HGone.
Proof.
  intros Hr Hx r h Hh. pose proof (reach_rx s Hr) as HR. unfold InvRx in HR. pose proof (sum_lookup h_rx _ _ _ Hh) as H.
  unfold h_rx in H at 1. destruct (h_st h); try lia; done.
Qed.
Lemma new_live_dead s f x p k : reach s → sfs s !! f = Some x → sf_st x = SNew p k → sf_live x = true.
Proof.
  intros Hr Hf Hs. pose proof (reach_dead s Hr) as HD. pose proof (sum_lookup f_dead _ _ _ Hf) as H. rewrite HD in H. unfold f_dead in H. rewrite Hs in H.
  destruct (sf_live x); [done|cbn in H; lia].
Qed.
Lemma ended_all s f x : reach s → quiet s → ended s → sfs s !! f = Some x → pollable x → ∃ o, o ≠ OPending ∧ o ≠ OPanic ∧ resolves_to s f o.
Proof.
  intros Hr Hq (H1 & H2 & H3 & H4 & _) Hf Hp. destruct (sf_st x) as [p k| |c| |] eqn:Hs.
  1: { exists OErrDisconnected. split_and!; try done. eapply resolve_new_disc; try done; [apply Hp|by right]. }
  all: assert (∀ p k, sf_st x ≠ SNew p k) as Hn by (by rewrite Hs).
  all: destruct (message_of x) as [m|] eqn:Hm.
  all: try (eapply ended_resolves; try done; eapply drained_over; try done; [by apply rxc_gone| |by eapply owner_exists]).
  all: try (intros g y p k Hg _ Hy Hsy; assert (f = g) as <- by (eapply (owner_unique s f g x y m); [done..|by apply message_of_is|by apply message_of_is]);
    rewrite Hf in Hg; injection Hg as <-; by rewrite Hsy in Hs).
  all: unfold message_of in Hm; destruct (sf_mode x) as [|[]|] eqn:Hmd; try done.
  all: try (exfalso; destruct (reach_K s Hr f 0) as (_ & _ & _ & _ & K); rewrite !(at_some _ _ _ _ Hf) in K; unfold f_any, fk in K;
        rewrite Hmd, Hs in K; destruct Hp as (_ & P1 & P2); rewrite Hs in *; try done; by apply K; [lia|]).
  all: destruct (bcast_resolves s f x Hr Hq H4 Hf Hp Hmd Hn) as (o & Ho & Hres); exists o; destruct Ho as [-> | ->]; done.
Qed.
Lemma ended_rcv s x rc : reach s → quiet s → ended s → rcvs s !! x = Some rc → rc_live rc = true → rc_st rc = XIdle →
  ∃ o, o ≠ OPending ∧ o ≠ OPanic ∧ receiver_resolves_to s x o.
Proof.
  intros Hr Hq (H1 & H2 & H3 & H4 & _) Hx Hl Hs. eapply rcv_resolves; try done. eapply drained_over; try done; [by apply rxc_gone| |by eapply rcv_exists].
  intros f y p k Hf _ Hm Hn. apply message_of_is in Hm as [Hm _]. by apply (owner_rcv s f x y rc (rc_m rc) Hr Hf Hx Hm).
Qed.
(** What happens to a blocked and to a queued message. *)
Lemma shutdown_log s t rest : thr s !! t = Some (URxShutdown :: rest) → logx (exec_rx_shutdown s) (step s (Step t)).
Proof.
  intros Ht. unfold step, do_step. rewrite Ht. cbn [exec]. unfold collect. case_match; [by exists []|].
  match goal with |- logx _ (free_chan ?x) => destruct (free_logx x) as [k Hk] end. exists k. by rewrite Hk.
Qed.
Lemma shutdown_blocked s t m : reach s → next_action s t URxShutdown → 0 < blocked m s → EvDrop m DClosed ∈ log (step s (Step t)).
Proof.
  intros Hr [rest Ht] Hb. eapply logx_in; [by eapply shutdown_log|].
  set (e := λ e, match e with EvDrop x DClosed => isn m x | _ => 0 end).
  pose proof (rx_shutdown_meas (is m) e s ltac:(done) ltac:(done)) as H.
  rewrite rx_shutdown_cells1 in H by apply (reach_ws s Hr).
  assert (Σ (ccell (is m)) (close_cell <$> cells1 s) = 0) as E0.
  { apply sum_zero. intros x (y & -> & _)%elem_of_list_fmap. by destruct y as [[] []]. }
  assert (blocked m s = Σ (ccell (is m)) (cells1 s)) as E1 by (unfold blocked; apply cnt_sum; b2n).
  assert (0 < Σ e (log (exec_rx_shutdown s))) as (x & Hx & He)%sum_pos by lia.
  destruct x as [| | | | | | | | |k y| | | | | | |]; cbn in He; try lia. destruct y; cbn in He; try lia. unfold isn in He. case_eqb; [by subst|lia].
Qed.
Lemma shutdown_queued s t m : reach s → next_action s t URxShutdown → 0 < in_queue m s → EvDrop m DCleared ∈ log (step s (Step t)).
Proof.
  intros Hr [rest Ht] Hb. eapply logx_in; [by eapply shutdown_log|].
  set (e := λ e, match e with EvDrop x DCleared => isn m x | _ => 0 end).
  pose proof (rx_shutdown_log e s ltac:(done)) as H.
  assert (in_queue m s = Σ (λ k, e (EvDrop (um_id k) DCleared)) (uq s)) as E1 by (unfold in_queue; apply cnt_sum; cbn; intros []; cbn; unfold isn; by case_match).
  assert (0 < Σ e (log (exec_rx_shutdown s))) as (x & Hx & He)%sum_pos by lia.
  destruct x as [| | | | | | | | |k y| | | | | | |]; cbn in He; try lia. destruct y; cbn in He; try lia. unfold isn in He. case_eqb; [by subst|lia].
Qed.
Lemma times_later p s s' : later s s' → times p s ≤ times p s'.
Proof. intros [k Hk]%log_later. unfold times, cnt. rewrite Hk, List.filter_app, app_length. lia. Qed.
Lemma after_blocked s t s' f x m : reach s → next_action s t URxShutdown → later (step s (Step t)) s' → quiet s' →
  0 < blocked m s → sfs s' !! f = Some x → pollable x → message_of x = Some m → resolves_to s' f OErrDisconnected.
Proof.
  intros Hr Hn Hl Hq Hb Hf Hp Hm. pose proof (reach_one s (Step t) Hr) as Hr1. pose proof (later_reach _ _ Hr1 Hl) as Hr'.
  assert (EvDrop m DClosed ∈ log s') as He by (eapply logx_in; [by apply log_later|by apply shutdown_blocked]).
  eapply resolve_disconnected; try done.
  apply (spent s' m Hr'). unfold ndrop. pose proof (sum_elem (e_drop d_pre m) _ _ He) as H. cbn in H. unfold isn in H. rewrite Nat.eqb_refl in H. lia.
Qed.
Lemma after_queued s t s' f x m : reach s → next_action s t URxShutdown → later (step s (Step t)) s' → quiet s' →
  0 < in_queue m s → sfs s' !! f = Some x → pollable x → sf_mode x = MReturn m → resolves_to s' f OErrInterrupted.
Proof.
  intros Hr Hn Hl Hq Hb Hf Hp Hm. pose proof (reach_one s (Step t) Hr) as Hr1. pose proof (later_reach _ _ Hr1 Hl) as Hr'.
  assert (EvDrop m DCleared ∈ log s') as He by (eapply logx_in; [by apply log_later|by apply shutdown_queued]).
  eapply resolve_interrupted; try done.
  assert (later s s') as Hl' by (destruct Hl as [k ->]; by exists (Step t :: k)). pose proof (times_later (accepted m) s s' Hl').
  pose proof (reach_B s Hr m) as HB. unfold in_queue in Hb. rewrite (cnt_sum (is m)) in Hb by b2n.
  unfold times in *. rewrite (cnt_sum (e_acc m) _ (log s)) in H by b2n. lia.
Qed.

(** ** A message assigned to a receive future before its destructor looks is put back *)
Lemma busy_owned s t u p : thr s !! t = Some (u :: p) → chan_owned s = true.
Proof.
  intros Ht. unfold chan_owned. rewrite !orb_true_iff. right. apply existsb_exists. exists (u :: p). split; [|done]. by eapply elem_of_list_In, elem_of_list_lookup_2.
Qed.
Lemma owned_collect s : chan_owned s = true → collect s = s.
Proof. unfold collect. by intros ->. Qed.
Lemma fulfill_log m ws s : log (fulfill ws m s).1 = log s.
Proof.
  revert s; induction ws as [|o ws IH]; intros s; [done|]. cbn [fulfill]. unfold one_send.
  destruct (ones s !! o) as [[[] []]|]; cbn [fst]; try apply IH. prj. by autorewrite with fr_log.
Qed.
Lemma put_back s t o rx k : reach s → next_action s t (UCancel o) → ones s !! o = Some (ON rx (OFull (CNewMsg k))) →
  in_queue (um_id k) (run s [Step t; Step t]) + in_flight (um_id k) (run s [Step t; Step t]) = 1.
Proof.
  intros Hr [rest Ht] Ho. set (m := um_id k).
  assert (rest ≠ []) as Hrest.
  { intros ->. destruct (reach_sh s Hr t _ Ht) as [B _]. cbn in B. lia. }
  destruct rest as [|u0 rest]; [done|]. assert (t < length (thr s)) as Hlt by by eapply lookup_lt_Some.
  set (s1 := set_thr (<[t := URequeue k :: u0 :: rest]> (thr s)) (set_ones (<[o := ON rx OTaken]> (ones s)) s)).
  assert (step s (Step t) = s1) as E1.
  { unfold step, do_step. rewrite Ht. cbn [exec]. unfold exec_cancel. rewrite Ho. apply owned_collect. eapply (busy_owned _ t). prj. by apply list_lookup_insert. }
  assert (thr s1 !! t = Some (URequeue k :: u0 :: rest)) as Ht1 by (by apply list_lookup_insert).
  set (s2' := (let '(x, b) := try_fulfill_receiver k s1 in if b then x else push_unicast k x)).
  set (s2 := set_thr (<[t := u0 :: rest]> (thr s2')) s2').
  assert (exec (URequeue k) s1 = (s2', [])) as E2a.
  { cbn [exec]. unfold s2'. by destruct (try_fulfill_receiver k s1) as [x []]. }
  assert (thr s2' = thr s1) as E2t by (pose proof (exec_thr (URequeue k) s1) as H; by rewrite E2a in H).
  assert (step s1 (Step t) = s2) as E2.
  { unfold step, do_step. rewrite Ht1, E2a. apply owned_collect. apply (busy_owned s2 t u0 rest). change (<[t := u0 :: rest]> (thr s2') !! t = Some (u0 :: rest)). rewrite E2t. apply list_lookup_insert. by eapply lookup_lt_Some. }
  assert (run s [Step t; Step t] = s2) as -> by (unfold run; cbn [fold_left]; by rewrite E1, E2).
  assert (reach s1) as Hr1 by (rewrite <-E1; by apply reach_one). assert (reach s2) as Hr2 by (rewrite <-E2; by apply reach_one).
  pose proof (reach_A s Hr m) as HA. pose proof (reach_B s Hr m) as HB. pose proof (reach_B s2 Hr2 m) as HB2.
  assert (log s2 = log s) as EL.
  { change (log s2' = log s). unfold s2', try_fulfill_receiver. pose proof (fulfill_log k (wrx s1) s1) as H. destruct (fulfill _ _ _) as [[x ws] []]; cbn [fst] in H; exact H. }
  pose proof (msum_step (g_mid m) s t _ (u0 :: rest) [URequeue k] (set_ones (<[o := ON rx OTaken]> (ones s)) s) Ht eq_refl) as M1.
  change (msum (g_mid m) (set_thr _ _)) with (msum (g_mid m) s1) in M1.
  pose proof (msum_step (g_mid m) s1 t _ (u0 :: rest) [] s2' Ht1 E2t) as M2. cbn [app] in M2. change (set_thr (<[t := u0 :: rest]> (thr s2')) s2') with s2 in M2.
  cbn [g_mid sum_list_with foldr] in M1, M2. rewrite EL in HB2.
  pose proof (sum_lookup (oone (is m)) _ _ _ Ho) as HO. unfold oone in HO at 1. cbn in HO.
  assert (is m k = 1) as Ek by (unfold is, isn, m; by rewrite Nat.eqb_refl).
  assert (Σ (e_acc m) (log s) ≤ Σ (e_pre m) (log s)) by (apply sum_le; intros []; cbn; lia).
  pose proof (lt1_le m (length (reps s))).
  unfold in_queue, in_flight. rewrite (cnt_sum (is m)) by b2n. rewrite (cnt_sum (oone (is m))) by b2n. cbn in *. lia.
Qed.

(** ** stop_all while a strong address exists *)
Lemma stop_all_put s r b k w a b' : reach s → hols s !! r = Some (HO b (HRun a) k w) → 0 < txc s → owned_queue s b' →
  ∃ i, BStop i ∈ backlog (run s [AStopAll r; Step (length (thr s))]) b'.
Proof.
  intros Hr Hh Ht Ho. set (s1 := call [UStopAll; UTxDec] (set_txc (S (txc s)) s)).
  assert (thr s1 !! length (thr s) = Some [UStopAll; UTxDec]) as H1 by (unfold s1, call; prj; by rewrite lookup_app_r, Nat.sub_diag by lia).
  assert (step s (AStopAll r) = s1) as E1.
  { unfold step. cbn [api]. rewrite Hh. destruct (Nat.eqb_spec (txc s) 0) as [H|H]; [lia|]. apply owned_collect. by eapply busy_owned. }
  exists (nbm s1). unfold run. cbn [fold_left]. rewrite E1. eapply stop_put; [rewrite <-E1; by apply reach_one|by eexists|].
  exact Ho.
Qed.
