(** Disconnection: permanence, and the notifications that are under way. *)
From stdpp Require Import base numbers list list_numbers.
From Coq Require Import Lia.
From Verif Require Import Prio Heap State Model HeapProofs Frame Lib InvBusy InvCount Effects InvMsg InvOne InvOne2.

(** A live strong address, an unsent strong send or a call of one keeps the count up. *)
Lemma addr_tx s a e : reach s → addrs s !! a = Some (AD true e true) → 1 ≤ txc s.
Proof.
  intros Hr Ha. pose proof (reach_tx s Hr) as H. unfold InvTx in H.
  pose proof (sum_lookup a_tx _ _ _ Ha). cbn in *. lia.
Qed.
Lemma hol_rx s r h : reach s → hols s !! r = Some h → h_st h ≠ HGone → 1 ≤ rxc s.
Proof.
  intros Hr Hh Hs. pose proof (reach_rx s Hr) as H. unfold InvRx in H.
  pose proof (sum_lookup h_rx _ _ _ Hh) as H2. unfold h_rx in H2 at 1. destruct (h_st h); try done; lia.
Qed.

Lemma txc0_api s o : reach s → txc s = 0 → txc (api o s) = 0.
Proof.
  intros Hr H0. destruct o; cbn [api]; repeat (dgoal; try done); cbv zeta;
    unfold add_addr, is_mailbox in *; repeat dgoal; repeat (progress (prj; autorewrite with fr_txc)); try done;
    try match goal with H : addrs s !! _ = Some _ |- _ => subst; pose proof (addr_tx _ _ _ Hr H); lia end.
  all: by rewrite H0 in *.
Qed.
Lemma rxc0_api s o : reach s → rxc s = 0 → rxc (api o s) = 0.
Proof.
  intros Hr H0. destruct o; cbn [api]; repeat (dgoal; try done); cbv zeta;
    unfold add_addr in *; repeat dgoal; repeat (progress (prj; autorewrite with fr_rxc)); try done;
    try match goal with H : hols s !! _ = Some ?h |- _ =>
      pose proof (hol_rx _ _ _ Hr H) as Hx; destruct (h_st h); cbn in *; try done; specialize (Hx ltac:(done)); lia end.
Qed.
Lemma txc0_exec s u : txc s = 0 → txc (fst (exec u s)) = 0.
Proof.
  intros H0. destruct (exec u s) as [s1 new] eqn:E. cbn [fst].
  exec_cases u E; repeat (progress (prj; autorewrite with fr_txc)); lia.
Qed.
Lemma rxc0_exec s u : rxc s = 0 → rxc (fst (exec u s)) = 0.
Proof.
  intros H0. destruct (exec u s) as [s1 new] eqn:E. cbn [fst].
  exec_cases u E; repeat (progress (prj; autorewrite with fr_rxc)); lia.
Qed.
Lemma txc0_step s o : reach s → txc s = 0 → txc (step s o) = 0.
Proof.
  intros Hr H0. unfold step, collect.
  assert (txc (match o with Step t => do_step t s | _ => api o s end) = 0) as H.
  { pose proof (txc0_api s o Hr H0). destruct o; try done.
    unfold do_step. destruct (thr s !! t) as [[|u rest]|]; try done.
    pose proof (txc0_exec s u H0). destruct (exec u s). done. }
  destruct (chan_owned _); [done|]. by autorewrite with fr_txc.
Qed.
Lemma rxc0_step s o : reach s → rxc s = 0 → rxc (step s o) = 0.
Proof.
  intros Hr H0. unfold step, collect.
  assert (rxc (match o with Step t => do_step t s | _ => api o s end) = 0) as H.
  { pose proof (rxc0_api s o Hr H0). destruct o; try done.
    unfold do_step. destruct (thr s !! t) as [[|u rest]|]; try done.
    pose proof (rxc0_exec s u H0). destruct (exec u s). done. }
  destruct (chan_owned _); [done|]. by autorewrite with fr_rxc.
Qed.
Lemma txc0_run s l : reach s → txc s = 0 → txc (run s l) = 0.
Proof.
  revert s; induction l as [|o l IH]; intros s Hr H; simpl; [done|].
  apply IH; [by apply reach_one|by apply txc0_step].
Qed.
Lemma rxc0_run s l : reach s → rxc s = 0 → rxc (run s l) = 0.
Proof.
  revert s; induction l as [|o l IH]; intros s Hr H; simpl; [done|].
  apply IH; [by apply reach_one|by apply rxc0_step].
Qed.

(** ** End of the last strong address: who still has to tell the waiting receivers *)
Definition g_ts (u : micro) : nat := match u with UTxShutdown => 1 | _ => 0 end.
Definition g_tn (u : micro) : nat := match u with UTxShutdown | UTxNotify _ => 1 | _ => 0 end.

Definition InvTS (s : state) : Prop :=
  (0 < msum g_tn s → txc s = 0) ∧ (txc s = 0 → wrx s = [] ∨ 0 < msum g_ts s).

Lemma wrx_nil_fulfill ws m s : ws = [] → wrx (fst (fulfill ws m s)) = [].
Proof. by intros ->. Qed.
Lemma wrx_nil_try_fulfill m s : wrx s = [] → wrx (fst (try_fulfill_receiver m s)) = [].
Proof. apply wrx_nil_fulfill. Qed.
Lemma wrx_send_broadcast m s : wrx (send_broadcast m s) = [].
Proof. unfold send_broadcast. cbv zeta. by repeat (progress (prj; autorewrite with fr_wrx)). Qed.
Lemma wrx_nil_pop_broadcast b s : wrx s = [] → wrx (fst (pop_broadcast b s)) = [].
Proof.
  intros H. unfold pop_broadcast. destruct (heap_pop _ _) as [[m h]|]; [|done]. cbv zeta.
  case_match; cbn [fst]; [prj; by autorewrite with fr_wrx|].
  match goal with |- context [take_waitingA ?x] => dpair (take_waitingA x) end.
  destruct r1; cbn [fst]; [apply wrx_send_broadcast|].
  by repeat (progress (prj; autorewrite with fr_wrx)).
Qed.
Lemma free_wrx s : wrx (free_chan s) = [].
Proof. unfold free_chan. cbv zeta. by repeat (progress (prj; autorewrite with fr_wrx)). Qed.

Lemma api_txc_tn s o : reach s → msum g_tn (api o s) = msum g_tn s ∧ msum g_ts (api o s) = msum g_ts s.
Proof.
  intros Hr. destruct o; cbn [api]; repeat (dgoal; try done); cbv zeta; split_drops;
    unfold add_addr, tx_drop, payload_drop, amsg_drop, rx_drop in *; repeat dgoal;
    unfold msum; repeat (progress (prj; autorewrite with fr_thr)); rewrite ?sum_snoc; cbn; try done; lia.
Qed.

Lemma reach_ts s : reach s → InvTS s.
Proof.
  revert s. apply reach_inv; unfold InvTS.
  - intros c. cbn. split; [lia|done].
  - intros s o Hr [I1 I2]. destruct (api_txc_tn s o Hr) as [-> ->].
    split; [intros H; by apply txc0_api, I1|].
    assert (wrx (api o s) = wrx s) as ->.
    { destruct o; cbn [api]; repeat (dgoal; try done); cbv zeta; unfold add_addr; repeat dgoal;
      by repeat (progress (prj; autorewrite with fr_wrx)). }
    intros H. destruct (decide (txc s = 0)) as [Hz|Hz]; [by apply I2|]. exfalso. revert H.
    clear I1 I2. destruct o; cbn [api]; repeat (dgoal; try done); cbv zeta; unfold add_addr; repeat dgoal;
      repeat (progress (prj; autorewrite with fr_txc)); lia.
  - intros s t u rest s1 new Hr [I1 I2] Ht E Hthr.
    pose proof (msum_step g_tn s t u rest new s1 Ht Hthr) as HM.
    pose proof (msum_step g_ts s t u rest new s1 Ht Hthr) as HM2.
    pose proof (msum_head g_tn s t u rest Ht) as HH.
    revert HM HM2. generalize (msum g_tn (set_thr (<[t:=new ++ rest]> (thr s1)) s1)).
    generalize (msum g_ts (set_thr (<[t:=new ++ rest]> (thr s1)) s1)). intros n2 n HM HM2.
    prj. clear Hthr.
    pose proof (reach_tx s Hr) as HT. unfold InvTx in HT. pose proof (msum_head g_tx s t u rest Ht) as HTH.
    exec_cases u E; repeat (progress (prj; autorewrite with fr_txc fr_wrx)).
    all: rewrite ?sum_list_with_app in HM, HM2; unfold rx_drop, payload_drop, tx_drop in *;
      repeat match type of HM with context [match ?x with _ => _ end] => destruct x end;
      cbn -[Nat.eqb] in HM, HM2, HH, HTH.
    all: rewrite ?sum_notify in HM2 by done.
    all: split; [intros; try (apply I1; lia); try lia|intros Hz; try (by left); try specialize (I2 Hz); try lia].
    all: try (destruct I2 as [I2|I2]; [left|right; lia]).
    all: rewrite ?wrx_send_broadcast; try done.
    all: try (by apply wrx_nil_try_fulfill); try (by apply wrx_nil_pop_broadcast).
    all: case_eqb; try lia.
  - intros s Hr [I1 I2] Ho. rewrite (msum_eq g_tn s), (msum_eq g_ts s) by (autorewrite with fr_thr; done).
    autorewrite with fr_txc. rewrite free_wrx. split; [done|by left].
Qed.

(** ** Shutdown of the channel when the last mailbox goes *)
Definition g_rs (u : micro) : nat := match u with URxShutdown => 1 | _ => 0 end.
Definition InvRS (s : state) : Prop := 0 < msum g_rs s → rxc s = 0.

Lemma api_rs s o : msum g_rs (api o s) = msum g_rs s.
Proof.
  destruct o; cbn [api]; repeat (dgoal; try done); cbv zeta; split_drops;
    unfold add_addr, tx_drop, payload_drop, amsg_drop, rx_drop in *; repeat dgoal;
    unfold msum; repeat (progress (prj; autorewrite with fr_thr)); rewrite ?sum_snoc; cbn; try done; lia.
Qed.
Lemma reach_rs s : reach s → InvRS s.
Proof.
  revert s. apply reach_inv; unfold InvRS.
  - intros c. cbn. lia.
  - intros s o Hr I. rewrite api_rs. intros H. apply rxc0_api; [done|]. by apply I.
  - intros s t u rest s1 new Hr I1 Ht E Hthr.
    pose proof (msum_step g_rs s t u rest new s1 Ht Hthr) as HM.
    revert HM. generalize (msum g_rs (set_thr (<[t:=new ++ rest]> (thr s1)) s1)). intros n HM.
    prj. clear Hthr.
    exec_cases u E; repeat (progress (prj; autorewrite with fr_rxc)).
    all: rewrite ?sum_list_with_app in HM; unfold rx_drop, payload_drop, tx_drop in *;
      repeat match type of HM with context [match ?x with _ => _ end] => destruct x end;
      cbn -[Nat.eqb] in HM.
    all: rewrite ?sum_notify in HM by done.
    all: intros; try (apply I1; lia); case_eqb; try lia.
  - intros s Hr I Ho. rewrite (msum_eq g_rs s) by (autorewrite with fr_thr; done).
    by autorewrite with fr_rxc.
Qed.
