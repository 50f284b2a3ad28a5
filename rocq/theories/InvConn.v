(** Failed sends and the connection: a send fails only on a disconnected channel. *)
From stdpp Require Import base numbers list list_numbers.
From Coq Require Import Lia.
From Verif Require Import Prio Heap State Model HeapProofs Frame Lib InvBusy InvCount Effects InvMsg InvDisc InvFut InvCell WaitSpec InvWs InvBlk
  Mono InvSend InvErr Events InvSmall InvMsg2 InvHeap InvBc.

(** ** Cells closed by a shutdown *)
Lemma take_message_clo {A} (cs : list (wcell A)) c k : at_ c_clo (take_message cs c).1 k ≤ at_ c_clo cs k.
Proof.
  unfold take_message. destruct (cs !! c) as [[[] st]|] eqn:E; try done.
  destruct st; cbn [fst]; rewrite (at_insert _ _ _ _ _ _ E); case_match; cbn; lia.
Qed.
Lemma try_take_clo {A} (key : A → prio) n cs ws k : at_ c_clo (try_take key n cs ws).1.1 k ≤ at_ c_clo cs k.
Proof.
  revert cs ws. induction n as [|n IH]; intros cs ws; [done|]. cbn [try_take].
  destruct (find_remove key cs ws) as [ws' [c|]]; [|done].
  pose proof (take_message_clo cs c k) as H. destruct (take_message cs c) as [cs' [r|]]; cbn [fst] in *; [done|]. etrans; [apply IH|done].
Qed.
Lemma take_waiting1_clo s k : at_ c_clo (cells1 (take_waiting1 s).1) k ≤ at_ c_clo (cells1 s) k.
Proof.
  unfold take_waiting1. pose proof (try_take_clo um_prio (S (length (ws1 s))) (cells1 s) (ws1 s) k) as H.
  destruct (try_take _ _ _ _) as [[cs ws] [[m w]|]]; cbn [fst] in *; repeat (progress (prj; autorewrite with fr_cells1)); done.
Qed.
Lemma take_waitingA_clo s k : at_ c_clo (cellsA (take_waitingA s).1) k ≤ at_ c_clo (cellsA s) k.
Proof.
  unfold take_waitingA. pose proof (try_take_clo bm_prio (S (length (wsA s))) (cellsA s) (wsA s) k) as H.
  destruct (try_take _ _ _ _) as [[cs ws] [[m w]|]]; cbn [fst] in *; repeat (progress (prj; autorewrite with fr_cellsA)); done.
Qed.
Lemma pop_unicast_clo s k : at_ c_clo (cells1 (pop_unicast s).1) k ≤ at_ c_clo (cells1 s) k.
Proof.
  unfold pop_unicast. destruct (heap_pop _ _) as [[m h]|]; [|done]. cbv zeta. case_match; [done|].
  pose proof (take_waiting1_clo (set_uq h s) k) as Hk. destruct (take_waiting1 (set_uq h s)) as [s2 [m2|]]; cbn [fst] in *;
    repeat (progress (prj; autorewrite with fr_cells1)); done.
Qed.
Lemma pop_broadcast_clo b s k : at_ c_clo (cellsA (pop_broadcast b s).1) k ≤ at_ c_clo (cellsA s) k.
Proof.
  unfold pop_broadcast. destruct (heap_pop _ _) as [[m h]|]; [|done]. cbv zeta.
  match goal with |- context [take_waitingA ?x] => pose proof (take_waitingA_clo x k) as Hk; assert (cellsA x = cellsA s) as Ex by (by prj; autorewrite with fr_cellsA); rewrite Ex in Hk end.
  case_match; [cbn [fst]; by rewrite Ex|].
  match goal with |- context [take_waitingA ?x] => destruct (take_waitingA x) as [s2 [m2|]]; cbn [fst] in * end;
    repeat (progress (prj; autorewrite with fr_cellsA)); done.
Qed.
Lemma exec_clo u s s1 new k : exec u s = (s1, new) → u ≠ URxShutdown →
  at_ c_clo (cells1 s1) k ≤ at_ c_clo (cells1 s) k ∧ at_ c_clo (cellsA s1) k ≤ at_ c_clo (cellsA s) k.
Proof.
  intros E Hu. exec_cases u E; repeat (progress (prj; autorewrite with fr_cells1 fr_cellsA)); try done.
  all: try (rewrite ?pop_unicast_clo, ?pop_broadcast_clo; done).
  all: split; try done; sums; case_eqb; subst; rewrite ?at_ge by lia; ats; cbn; try lia.
  all: try (apply pop_unicast_clo); try (apply pop_broadcast_clo).
  all: try (rewrite at_ge by lia; lia).
  all: try (repeat match goal with b : bool |- _ => destruct b end; cbn; lia).
Qed.

Definition g_serr (u : micro) : nat := match u with USendErr _ => 1 | _ => 0 end.
Definition e_serrs (e : ev) : nat := match e with EvSend _ OErrDisconnected => 1 | _ => 0 end.
Definition disc (s : state) : Prop := txc s = 0 ∨ rxc s = 0.
Lemma disc_api s o : reach s → disc s → disc (api o s).
Proof. intros Hr [H|H]; [left; by apply txc0_api|right; by apply rxc0_api]. Qed.
Lemma disc_exec s u s1 new : exec u s = (s1, new) → disc s → disc s1.
Proof.
  intros E [H|H]; [left; pose proof (txc0_exec s u H) as H0|right; pose proof (rxc0_exec s u H) as H0]; by rewrite E in H0.
Qed.
Lemma disc_free s : disc s → disc (free_chan s).
Proof. unfold disc. by autorewrite with fr_txc fr_rxc. Qed.
Definition InvDC (s : state) : Prop :=
  (0 < msum g_serr s + Σ e_serrs (log s) → disc s) ∧
  (∀ c, 0 < at_ c_clo (cells1 s) c + at_ c_clo (cellsA s) c → disc s).
Lemma serr_src u s s1 new : exec u s = (s1, new) → g_serr u + Σ e_serrs (log s) < Σ g_serr new + Σ e_serrs (log s1) →
  disc s ∨ (∃ f c l, u = USendCell1 f c ∧ cells1 s !! c = Some (WC l WClosed)) ∨
  (∃ f c l, u = USendCellA f c ∧ cellsA s !! c = Some (WC l WClosed)).
Proof.
  intros E. exec_cases u E; rewrite ?sum_list_with_app; try (rewrite sum_notify by done);
    unfold rx_drop, payload_drop, amsg_drop, tx_drop in *; repeat (progress (prj; autorewrite with fr_log)); cbn -[Nat.eqb]; try lia.
  all: rewrite ?pop_broadcast_logm, ?rx_shutdown_log0 by done.
  all: try (destruct (pop_unicast_spec s) as (x & _ & _ & ->); destruct x; cbn; lia).
  all: repeat match goal with |- context [Σ _ (match ?x with _ => _ end)] => destruct x end; cbn -[Nat.eqb]; try lia.
  all: try (unfold poll_reply in *; by repeat case_match).
  all: try (by intros _; right; eauto 10).
  all: try (intros _; left; unfold disc; rewrite ?Nat.eqb_eq in *; auto).
Qed.
Lemma reach_DC s : reach s → InvDC s.
Proof.
  revert s. apply reach_inv; unfold InvDC.
  - intros c. split; [cbn; lia|]. intros i. rewrite !at_ge by (cbn; lia). lia.
  - intros s o Hr [I1 I2]. split.
    + intros H. apply disc_api; [done|]. apply I1.
      assert (Σ e_serrs (log (api o s)) = Σ e_serrs (log s)) as <-.
      { destruct o; cbn [api]; repeat (dgoal; try done); cbv zeta; unfold add_addr; repeat dgoal;
        repeat (progress (prj; autorewrite with fr_log)); done. }
      assert (msum g_serr (api o s) = msum g_serr s) as <-; [|done].
      destruct o; cbn [api]; repeat (dgoal; try done); cbv zeta; split_drops;
      unfold add_addr, tx_drop, payload_drop, amsg_drop, rx_drop in *; repeat dgoal;
      unfold msum; repeat (progress (prj; autorewrite with fr_thr)); rewrite ?sum_snoc; cbn; try done; lia.
    + intros c H. apply disc_api; [done|]. apply (I2 c).
      assert (cells1 (api o s) = cells1 s ∧ cellsA (api o s) = cellsA s) as [<- <-]; [|done].
      destruct o; cbn [api]; repeat (dgoal; try done); cbv zeta; unfold add_addr; repeat dgoal;
        repeat (progress (prj; autorewrite with fr_cells1 fr_cellsA)); done.
  - intros s t u rest s1 new Hr [I1 I2] Ht E Hthr.
    pose proof (msum_step g_serr s t u rest new s1 Ht Hthr) as HM.
    pose proof (msum_head g_serr s t u rest Ht) as HH. revert HM.
    generalize (msum g_serr (set_thr (<[t:=new ++ rest]> (thr s1)) s1)). intros n HM.
    assert (∀ l : list ev, disc s1 → disc (set_thr (<[t:=new ++ rest]> (thr s1)) s1)) as HD by (by intros; apply H).
    split; prj.
    + intros H. apply (HD []), (disc_exec _ _ _ _ E).
      destruct (decide (0 < msum g_serr s + Σ e_serrs (log s))) as [Hp|Hp]; [by apply I1|].
      destruct (serr_src _ _ _ _ E) as [?|[(f & c & l & -> & Hc)|(f & c & l & -> & Hc)]]; [lia|done|..].
      * destruct (reach_cell s Hr c) as [HC _]. pose proof (msum_head (g_c1 c) s t _ rest Ht) as HG. cbn in HG.
        unfold isn in HG. rewrite !Nat.eqb_refl in HG. rewrite (at_some _ _ _ _ Hc) in HC. destruct l; cbn in HC; [|lia].
        apply (I2 c). rewrite (at_some _ _ _ _ Hc). cbn. lia.
      * destruct (reach_cell s Hr c) as [_ HC]. pose proof (msum_head (g_cA c) s t _ rest Ht) as HG. cbn in HG.
        unfold isn in HG. rewrite !Nat.eqb_refl in HG. rewrite (at_some _ _ _ _ Hc) in HC. destruct l; cbn in HC; [|lia].
        apply (I2 c). rewrite (at_some c_clo _ _ _ Hc). cbn. lia.
    + intros c H. apply (HD []), (disc_exec _ _ _ _ E).
      assert (u = URxShutdown ∨ u ≠ URxShutdown) as [->|Hu] by (destruct u; by auto).
      * right. apply (reach_rs s Hr). pose proof (msum_head g_rs _ _ _ _ Ht). cbn in *. lia.
      * destruct (exec_clo _ _ _ _ c E Hu). apply (I2 c). lia.
  - intros s Hr [I1 I2] Ho. split.
    + rewrite (msum_eq g_serr s (free_chan s)) by (by autorewrite with fr_thr). rewrite free_log0 by done. intros H. by apply disc_free, I1.
    + intros _ _. apply disc_free. right. pose proof (reach_rx s Hr) as HR. unfold InvRx in HR.
      pose proof (owned_nown s Ho) as Hn. unfold nown in Hn.
      assert (Σ h_rx (hols s) = Σ h_any (hols s)) as E1 by done.
      assert (msum g_rx s ≤ msum g_own s) as E2.
      { unfold msum. apply sum_le. intros l. apply sum_le. intros []; cbn; lia. }
      lia.
Qed.

(** ** A send first polled on a disconnected channel *)
Definition g_l2 (f : nat) (u : micro) : nat := match u with USendLd2 g _ _ => isn f g | _ => 0 end.
Definition g_late (f : nat) (u : micro) : nat :=
  match u with USendLock g _ _ | USendCell1 g _ | USendCellA g _ | USendOk g | UReplyPoll g _ => isn f g | _ => 0 end.
Definition f_late (x : sfut) : nat := match sf_st x with SWait _ | SDone => 1 | _ => 0 end.
Definition e_other (f : nat) (e : ev) : nat := match e with EvSend g o => match o with OErrDisconnected => 0 | _ => isn f g end | _ => 0 end.
Definition unsent (f : nat) (n : nat) (s : state) : Prop :=
  f < length (sfs s) ∧ (txc s = 0 ∨ rxc s = 0 ∧ msum (g_l2 f) s = 0) ∧ msum (g_late f) s = 0 ∧ at_ f_late (sfs s) f = 0 ∧ Σ (e_other f) (log s) = n.
Lemma g_late_le f u : g_late f u ≤ g_sf f u.
Proof. destruct u; cbn; unfold is, isn; repeat case_match; lia. Qed.
Lemma g_l2_le f u : g_l2 f u ≤ g_sf f u.
Proof. destruct u; cbn; unfold is, isn; repeat case_match; lia. Qed.
Lemma unsent_exec f u s s1 new : reach s → exec u s = (s1, new) → g_late f u = 0 → (txc s = 0 ∨ rxc s = 0 ∧ g_l2 f u = 0) → at_ f_late (sfs s) f = 0 →
  Σ (g_late f) new = 0 ∧ at_ f_late (sfs s1) f = 0 ∧ Σ (e_other f) (log s1) = Σ (e_other f) (log s) ∧ (rxc s = 0 → Σ (g_l2 f) new = 0).
Proof.
  intros Hr E Hu Hd Hf. 
  exec_cases u E; rewrite ?sum_list_with_app; try (rewrite !sum_notify by done);
    unfold rx_drop, payload_drop, amsg_drop, tx_drop in *; repeat (progress (prj; autorewrite with fr_log fr_sfs)); cbn -[Nat.eqb] in *.
  all: rewrite ?pop_broadcast_logm, ?rx_shutdown_log0 by done.
  all: try (destruct (pop_unicast_spec s) as (x & _ & _ & ->); destruct x; cbn).
  all: repeat match goal with |- context [Σ _ (match ?x with _ => _ end)] => destruct x end; cbn -[Nat.eqb]; rewrite ?Nat.eqb_eq in *; try (split_and!; done || lia).
  all: try (apply Nat.eqb_neq in Em; split_and!; done || lia).
  all: unfold isn in *; try match goal with |- context [alter _ ?i (sfs _)] => rewrite at_alter end; try (erewrite at_insert by eassumption); 
   try match goal with |- context [?i =? ?j] => destruct (Nat.eqb_spec i j); [subst|] end; cbn in *; try (split_and!; done || lia).
  rewrite at_zero. done.
Qed.
Lemma unsent_api f n s o : reach s → unsent f n s → unsent f n (api o s).
Proof.
  intros Hr (H1 & H2 & H3 & H4 & H5).
  assert (at_ f_late (sfs (api o s)) f = 0 ∧ f < length (sfs (api o s)) ∧ msum (g_late f) (api o s) = 0 ∧ msum (g_l2 f) (api o s) = msum (g_l2 f) s ∧ Σ (e_other f) (log (api o s)) = n)
    as (A1 & A2 & A3 & A4 & A5).
  { do_api o ltac:(autorewrite with fr_sfs fr_log).
    all: rewrite ?app_length, ?insert_length; split_and!; try done; try lia.
    all: unfold isn; repeat case_eqb; subst; ats; cbn in *; try lia. }
  split_and!; try done. destruct H2 as [H2|[H2 H6]]; [left; by apply txc0_api|right]. split; [by apply rxc0_api|lia].
Qed.
Lemma unsent_step f n s t u rest s1 new : reach s → unsent f n s → thr s !! t = Some (u :: rest) → exec u s = (s1, new) → thr s1 = thr s →
  unsent f n (set_thr (<[t := new ++ rest]> (thr s1)) s1).
Proof.
  intros Hr (H1 & H2 & H3 & H4 & H5) Ht E Hthr.
  pose proof (msum_step (g_late f) s t u rest new s1 Ht Hthr) as M1. pose proof (msum_head (g_late f) s t u rest Ht) as N1.
  pose proof (msum_step (g_l2 f) s t u rest new s1 Ht Hthr) as M2. pose proof (msum_head (g_l2 f) s t u rest Ht) as N2.
  destruct (unsent_exec f u s s1 new Hr E) as (E1 & E2 & E3 & E4); [lia|destruct H2 as [?|[? ?]]; [by left|right; split; [done|lia]]|done|].
  split_and!; prj.
  - pose proof (exec_sfs_len u s s1 new E). lia.
  - destruct H2 as [H2|[H2 H6]].
    + left. pose proof (txc0_exec s u H2) as H. by rewrite E in H.
    + right. pose proof (rxc0_exec s u H2) as H. rewrite E in H. split; [done|]. specialize (E4 H2). lia.
  - lia.
  - done.
  - congruence.
Qed.
Lemma unsent_free f n s : reach s → unsent f n s → unsent f n (free_chan s).
Proof.
  intros Hr (H1 & H2 & H3 & H4 & H5). unfold unsent.
  rewrite (msum_eq (g_l2 f) s (free_chan s)), (msum_eq (g_late f) s (free_chan s)) by (by autorewrite with fr_thr).
  rewrite free_log0 by done. by autorewrite with fr_sfs fr_txc fr_rxc.
Qed.
(** Its message stays in its hands: nobody else ever holds it, and it is never accepted. *)
Definition g_snd (m : nat) (u : micro) : nat :=
  match u with USendLd1 _ (PU x) _ | USendLd2 _ (PU x) _ | USendLock _ (PU x) _ => is m x | _ => 0 end.
Definition g_own1 (f m : nat) (u : micro) : nat :=
  match u with USendLd1 g (PU x) _ | USendLd2 g (PU x) _ => isn f g * is m x | _ => 0 end.
Definition mine1 (f m : nat) (s : state) : Prop :=
  m < length (reps s) ∧
  Σ (f_pre m) (sfs s) + Σ (ccell (is m)) (cells1 s) + msum (g_snd m) s + Σ (e_acc m) (log s) ≤ at_ (f_pre m) (sfs s) f + msum (g_own1 f m) s.
Lemma api_reps_len o s : length (reps s) ≤ length (reps (api o s)).
Proof.
  destruct o; cbn [api]; repeat (dgoal; try done); cbv zeta; unfold add_addr; repeat dgoal;
    repeat (progress (prj; autorewrite with fr_reps)); rewrite ?app_length; cbn; try done; lia.
Qed.
Lemma exec_reps_len u s s1 new : exec u s = (s1, new) → length (reps s1) = length (reps s).
Proof.
  intros E. exec_cases u E; repeat (progress (prj; autorewrite with fr_lreps fr_reps)); rewrite ?insert_length; done.
Qed.
Lemma mine1_api f m s o : reach s → mine1 f m s → f < length (sfs s) → mine1 f m (api o s).
Proof.
  intros Hr (H1 & H2) H3. split.
  - pose proof (api_reps_len o s). lia.
  - do_api o ltac:(autorewrite with fr_sfs fr_cells1 fr_log); unfold is, isn in *; cbn in *; repeat case_eqb; subst; try lia.
    destruct p; lia.
Qed.
Lemma ccell_close c (l : list (wcell umsg)) : Σ (ccell c) (close_cell <$> l) = 0.
Proof. induction l as [|[[] []] l IH]; simpl; done. Qed.
Lemma mine1_step f m s t u rest s1 new : reach s → msum (g_late f) s = 0 → mine1 f m s → thr s !! t = Some (u :: rest) → exec u s = (s1, new) → thr s1 = thr s →
  Σ (g_late f) new = 0 → mine1 f m (set_thr (<[t := new ++ rest]> (thr s1)) s1).
Proof.
  intros Hr HL (H1 & H2) Ht E Hthr Hnew. split; [prj; by rewrite (exec_reps_len _ _ _ _ E)|].
  assert (g_late f u = 0) as Hl by (pose proof (msum_head (g_late f) s t u rest Ht); lia). clear HL.
  pose proof (msum_step (g_snd m) s t u rest new s1 Ht Hthr) as HM. pose proof (msum_head (g_snd m) s t u rest Ht) as N1.
  pose proof (msum_step (g_own1 f m) s t u rest new s1 Ht Hthr) as M2. pose proof (msum_head (g_own1 f m) s t u rest Ht) as N2.
  revert HM M2. generalize (msum (g_snd m) (set_thr (<[t:=new ++ rest]> (thr s1)) s1)), (msum (g_own1 f m) (set_thr (<[t:=new ++ rest]> (thr s1)) s1)). intros n n' HM M2.
  prj. clear Hthr.
  assert (∀ g, g_sf g u = 1 → at_ (f_pre m) (sfs s) g = 0) as Hb.
  { intros g Hf. destruct (busyF_at _ _ _ _ _ Hr Ht Hf) as (sf & H3 & H4). rewrite !(at_some _ _ _ _ H3). unfold f_pre. by rewrite H4. }
  rewrite ?sum_list_with_app in M2.
  do_exec u E HM ltac:(autorewrite with fr_sfs fr_cells1 fr_log fr_reps fr_lreps).
  all: rewrite ?sum_list_with_app in M2; try (rewrite sum_notify in M2 by done); cbn -[Nat.eqb Nat.sub] in M2.
  all: repeat (progress (prj; autorewrite with fr_log)); effects (is m).
  all: try (unfold is in *; fin; done).
  all: tokb Hb g_sf; try (unfold is in *; fin; done).
  all: try (unfold isn in M2 at 1; case_eqb; subst; lia).
  - destruct (reach_ws s Hr) as (W & _). rewrite rx_shutdown_cells1, rx_shutdown_log0, ccell_close by done. lia.
  - cbn in Hnew. assert (isn f f0 = 0) as E0 by lia. rewrite E0 in M2. destruct p; lia.
Qed.
Lemma mine1_free f m s : reach s → mine1 f m s → mine1 f m (free_chan s).
Proof.
  intros Hr (H1 & H2). destruct (reach_ws s Hr) as (W & _). unfold mine1.
  rewrite (msum_eq (g_snd m) s (free_chan s)), (msum_eq (g_own1 f m) s (free_chan s)) by (by autorewrite with fr_thr).
  rewrite free_cells1, ccell_close, free_log0 by done. autorewrite with fr_sfs fr_lreps. split; [done|lia].
Qed.
Definition g_ownA (f i : nat) (u : micro) : nat :=
  match u with USendLd1 g (PB x) _ | USendLd2 g (PB x) _ => isn f g * ibm i x | _ => 0 end.
Definition mineA (f i : nat) (s : state) : Prop :=
  i < nbm s ∧
  Σ (f_pb i) (sfs s) + Σ (bcell (ibm i)) (cellsA s) + msum (g_pb i) s + Σ (e_bc i) (log s) ≤ at_ (f_pb i) (sfs s) f + msum (g_ownA f i) s.
Lemma mineA_api f i s o : reach s → mineA f i s → f < length (sfs s) → mineA f i (api o s).
Proof.
  intros Hr (H1 & H2) H3. split.
  - destruct o; cbn [api]; repeat (dgoal; try done); cbv zeta; unfold add_addr; repeat dgoal;
      repeat (progress (prj; autorewrite with fr_nbm)); lia.
  - do_api o ltac:(autorewrite with fr_sfs fr_cellsA fr_log); unfold ibm, isn in *; cbn in *; repeat case_eqb; subst; try lia.
    all: try (destruct p; unfold ibm, isn in *; lia).
Qed.
Lemma mineA_step f i s t u rest s1 new : reach s → msum (g_late f) s = 0 → mineA f i s → thr s !! t = Some (u :: rest) → exec u s = (s1, new) → thr s1 = thr s →
  Σ (g_late f) new = 0 → mineA f i (set_thr (<[t := new ++ rest]> (thr s1)) s1).
Proof.
  intros Hr HL (H1 & H2) Ht E Hthr Hnew.
  assert (g_late f u = 0) as Hl by (pose proof (msum_head (g_late f) s t u rest Ht); lia). clear HL.
  pose proof (msum_step (g_pb i) s t u rest new s1 Ht Hthr) as HM. pose proof (msum_head (g_pb i) s t u rest Ht) as N1.
  pose proof (msum_step (g_ownA f i) s t u rest new s1 Ht Hthr) as M2. pose proof (msum_head (g_ownA f i) s t u rest Ht) as N2.
  unfold mineA. revert HM M2. generalize (msum (g_pb i) (set_thr (<[t:=new ++ rest]> (thr s1)) s1)), (msum (g_ownA f i) (set_thr (<[t:=new ++ rest]> (thr s1)) s1)). intros n n' HM M2.
  prj. clear Hthr.
  assert (∀ g, g_sf g u = 1 → at_ (f_pb i) (sfs s) g = 0) as Hb.
  { intros g Hf. destruct (busyF_at _ _ _ _ _ Hr Ht Hf) as (sf & H3 & H4). rewrite !(at_some _ _ _ _ H3). unfold f_pb. by rewrite H4. }
  destruct (reach_ws s Hr) as (_ & WA & _).
  do_exec u E HM ltac:(autorewrite with fr_sfs fr_cellsA fr_log fr_nbm).
  all: rewrite ?sum_list_with_app in M2; try (rewrite sum_notify in M2 by done); cbn -[Nat.eqb Nat.sub] in M2.
  all: rewrite ?rx_shutdown_log0, ?rx_shutdown_cellsA, ?bcell_close by done.
  all: try (destruct (pop_unicast_spec s) as (x & _ & _ & ->); destruct x; cbn).
  all: try match goal with |- context [pop_broadcast ?b ?s] => pose proof (pop_bc i b s) end.
  all: split; [try done; lia|].
  all: try (unfold ibm in *; fin; done).
  all: tokb Hb g_sf; try (unfold ibm in *; fin; done).
  all: try (unfold isn in M2 at 1; case_eqb; subst; lia).
  - cbn in Hnew. assert (isn f f0 = 0) as E0 by lia. rewrite E0 in M2. destruct p; lia.
  - cbn [sum_list_with e_bc]. lia.
  - cbn [sum_list_with e_bc]. lia.
  - cbn [sum_list_with e_bc]. unfold ibm at 2. unfold isn. cbn [bm_id]. case_eqb; subst; lia.
Qed.
Lemma mineA_free f i s : reach s → mineA f i s → mineA f i (free_chan s).
Proof.
  intros Hr (H1 & H2). destruct (reach_ws s Hr) as (_ & W & _). unfold mineA.
  rewrite (msum_eq (g_pb i) s (free_chan s)), (msum_eq (g_ownA f i) s (free_chan s)) by (by autorewrite with fr_thr).
  rewrite free_cellsA, bcell_close, free_log0 by done. autorewrite with fr_sfs fr_nbm. split; [done|lia].
Qed.
Lemma late_new f n s t u rest s1 new : reach s → unsent f n s → thr s !! t = Some (u :: rest) → exec u s = (s1, new) → Σ (g_late f) new = 0.
Proof.
  intros Hr (H1 & H2 & H3 & H4 & H5) Ht E.
  pose proof (msum_head (g_late f) s t u rest Ht) as N1. pose proof (msum_head (g_l2 f) s t u rest Ht) as N2.
  destruct (unsent_exec f u s s1 new Hr E) as (E1 & E2 & E3 & E4); [lia|destruct H2 as [?|[? ?]]; [by left|right; split; [done|lia]]|done|done].
Qed.

