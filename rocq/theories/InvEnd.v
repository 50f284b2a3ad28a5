(** After the last mailbox is gone: nothing is queued or blocked any more, provided that no send was past its
    check for connectedness at that moment. *)
From stdpp Require Import base numbers list list_numbers.
From Coq Require Import Lia.
From Verif Require Import Prio Heap State Model HeapProofs Frame Lib InvBusy InvCount Effects InvMsg InvDisc InvFut InvCell WaitSpec InvWs InvBlk
  Mono InvSend InvErr Events InvSmall InvMsg2 InvHeap.

(** ** A message is given back only by a call that still owns a mailbox handle *)
Definition g_back (u : micro) : nat := match u with UCancel _ | URequeue _ => 1 | _ => 0 end.
Fixpoint backed (p : list micro) : Prop :=
  match p with [] => True | u :: l => (0 < g_back u → 0 < Σ g_rx l) ∧ backed l end.
Definition InvSh (s : state) : Prop := ∀ t p, thr s !! t = Some p → backed p.
Lemma backed_app l k : Σ g_back l = 0 → backed k → backed (l ++ k).
Proof. induction l as [|u l IH]; cbn; [done|]. intros H Hk. split; [lia|]. apply IH; [lia|done]. Qed.
Lemma exec_back u s s1 new : exec u s = (s1, new) → Σ g_back new = 0 ∨ (∃ o m, u = UCancel o ∧ new = [URequeue m]).
Proof.
  intros E. exec_cases u E; unfold rx_drop, payload_drop, amsg_drop, tx_drop in *; try (rewrite sum_notify by done); rewrite ?sum_list_with_app;
   repeat match goal with |- context [match ?x with _ => _ end] => destruct x end; cbn; try (by left). by right; eauto.
Qed.
Lemma backed_drop p h : hol_drop h = Some p → backed p.
Proof. unfold hol_drop, rx_drop, amsg_drop. destruct (h_st h) as [| | |o|a|a|a|]; try done; intros [= <-]; try destruct a; cbn; split_and!; try done; lia. Qed.
Lemma backed_sf p f : sf_drop f = Some p → backed p.
Proof.
  unfold sf_drop, payload_drop, tx_drop. cbv zeta. intros H. rewrite <-(app_nil_r p). apply backed_app; [|done].
  destruct (sf_mode f) as [|[]|], (sf_st f) as [[] []| | | |]; cbn in H; simplify_eq; done.
Qed.
Lemma reach_sh s : reach s → InvSh s.
Proof.
  revert s. apply reach_inv; unfold InvSh.
  - intros c t p. cbn. done.
  - intros s o Hr I.
    assert (thr (api o s) = thr s ∨ ∃ p, thr (api o s) = thr s ++ [p] ∧ backed p) as [->|(p & -> & Hp)]; [|done|].
    { destruct o; cbn [api]; repeat (dgoal; try (by left)); cbv zeta; unfold add_addr; repeat dgoal;
        repeat (progress (prj; autorewrite with fr_thr)); try (by left); right; eexists; (split; [reflexivity|]);
        try (by eapply backed_drop); try (by eapply backed_sf); unfold tx_drop, rx_drop; repeat case_match; cbn; repeat split; try done; lia. }
    intros t q [Ht|[_ Ht]]%lookup_app_Some; [by eapply I|]. apply list_lookup_singleton_Some in Ht as [_ <-]. done.
  - intros s t u rest s1 new Hr I Ht E Hthr t' p. prj. rewrite Hthr. intros Hp.
    destruct (I _ _ Ht) as [B1 B2].
    destruct (decide (t' = t)) as [->|Hne]; [|rewrite list_lookup_insert_ne in Hp by done; by eapply I].
    rewrite list_lookup_insert in Hp by (by eapply lookup_lt_Some). injection Hp as <-.
    destruct (exec_back _ _ _ _ E) as [H|(o & m & -> & ->)]; [by apply backed_app|]. cbn. split; [|done]. intros _. apply B1. cbn. lia.
  - intros s Hr I Ho t p. autorewrite with fr_thr. apply I.
Qed.
Lemma backed_rx p : backed p → 0 < Σ g_back p → 0 < Σ g_rx p.
Proof. induction p as [|u l IH]; cbn; [lia|]. intros [H1 H2] H. destruct (decide (0 < g_back u)); [specialize (H1 ltac:(done)); lia|]. specialize (IH H2). lia. Qed.
Lemma back_rxc s : reach s → 0 < msum g_back s → 0 < rxc s.
Proof.
  intros Hr H. pose proof (reach_rx s Hr) as HR. unfold InvRx in HR. unfold msum in H. apply sum_pos in H as (p & [t Ht]%elem_of_list_lookup & Hp).
  pose proof (backed_rx p (reach_sh s Hr t p Ht) Hp). pose proof (sum_lookup (Σ g_rx) _ _ _ Ht). unfold msum in HR. lia.
Qed.

(** ** Nothing is queued or blocked *)
Definition g_ls (u : micro) : nat := match u with USendLd2 _ _ _ | USendLock _ _ _ => 1 | _ => 0 end.
Definition ended (s : state) : Prop := rxc s = 0 ∧ uq s = [] ∧ ws1 s = [] ∧ wsA s = [] ∧ msum g_ls s = 0.
Lemma take_waitingA_nil s : wsA s = [] → wsA (take_waitingA s).1 = [].
Proof. unfold take_waitingA. intros ->. cbn. done. Qed.
Lemma pop_broadcast_nil b s : wsA s = [] → wsA (pop_broadcast b s).1 = [].
Proof.
  intros H. unfold pop_broadcast. destruct (heap_pop _ _) as [[m h]|]; [|done]. cbv zeta.
  match goal with |- context [take_waitingA ?x] => assert (wsA x = []) as Ex by (by prj; autorewrite with fr_wsA); pose proof (take_waitingA_nil x Ex) as Hk end.
  case_match; [done|].
  match goal with |- context [take_waitingA ?x] => destruct (take_waitingA x) as [s2 [m2|]]; cbn [fst] in * end;
    repeat (progress (prj; autorewrite with fr_wsA)); done.
Qed.
Lemma pop_unicast_nil s : uq s = [] → pop_unicast s = (s, None).
Proof. unfold pop_unicast. by intros ->. Qed.
Lemma ended_exec u s s1 new : reach s → ended s → exec u s = (s1, new) → g_ls u = 0 → g_back u = 0 →
  rxc s1 = 0 ∧ uq s1 = [] ∧ ws1 s1 = [] ∧ wsA s1 = [] ∧ Σ g_ls new = 0.
Proof.
  intros Hr (H1 & H2 & H3 & H4 & _) E. exec_cases u E; cbn [g_ls g_back]; intros Hg Hb; try done;
   unfold rx_drop, payload_drop, amsg_drop, tx_drop in *; try (rewrite sum_notify by done); rewrite ?sum_list_with_app;
   rewrite ?pop_unicast_nil in * by done; cbn [fst snd] in *;
   repeat (progress (prj; autorewrite with fr_rxc fr_uq fr_ws1 fr_wsA)); rewrite ?rx_shutdown_uq, ?rx_shutdown_ws1, ?rx_shutdown_wsA, ?pop_broadcast_nil by done;
   try (by split_and!; repeat case_match; cbn; try done; lia).
  by rewrite H1 in Em.
Qed.
Lemma ended_api o s : reach s → ended s → ended (api o s).
Proof.
  intros Hr (H1 & H2 & H3 & H4 & H5). assert (rxc (api o s) = 0) as Hx by (by apply rxc0_api).
  assert (uq (api o s) = uq s ∧ ws1 (api o s) = ws1 s ∧ wsA (api o s) = wsA s ∧ msum g_ls (api o s) = msum g_ls s) as (E1 & E2 & E3 & E4).
  { destruct o; cbn [api]; repeat (dgoal; try done); cbv zeta; split_drops;
      unfold add_addr, tx_drop, payload_drop, amsg_drop, rx_drop in *; repeat dgoal;
      unfold msum; repeat (progress (prj; autorewrite with fr_uq fr_ws1 fr_wsA fr_thr)); rewrite ?sum_snoc; cbn; split_and!; try done; lia. }
  unfold ended. rewrite E1, E2, E3, E4. done.
Qed.
Lemma ended_step s t u rest s1 new : reach s → ended s → thr s !! t = Some (u :: rest) → exec u s = (s1, new) → thr s1 = thr s →
  ended (set_thr (<[t := new ++ rest]> (thr s1)) s1).
Proof.
  intros Hr He Ht E Hthr. pose proof He as (H1 & _ & _ & _ & H5).
  pose proof (msum_step g_ls s t u rest new s1 Ht Hthr) as HM. pose proof (msum_head g_ls s t u rest Ht) as HH.
  assert (g_back u = 0) as Hb.
  { destruct (decide (0 < g_back u)); [|lia]. pose proof (msum_head g_back s t u rest Ht). pose proof (back_rxc s Hr ltac:(lia)). lia. }
  destruct (ended_exec _ _ _ _ Hr He E ltac:(lia) Hb) as (X1 & X2 & X3 & X4 & X5).
  unfold ended. prj. split_and!; try done. lia.
Qed.
Lemma ended_free s : ended s → ended (free_chan s).
Proof.
  intros (H1 & H2 & H3 & H4 & H5). unfold ended. rewrite (msum_eq g_ls s (free_chan s)) by (by autorewrite with fr_thr).
  autorewrite with fr_rxc. split_and!; try done.
  all: by rewrite ?free_uq, ?free_ws1, ?free_wsA.
Qed.
Lemma shutdown_ended s t rest : reach s → thr s !! t = Some (URxShutdown :: rest) → msum g_ls s = 0 → ended (do_step t s).
Proof.
  intros Hr Ht H. assert (rxc s = 0) as Hx by (apply (reach_rs s Hr); pose proof (msum_head g_rs _ _ _ _ Ht); cbn in *; lia).
  pose proof (msum_step g_ls s t _ rest [] (exec_rx_shutdown s) Ht ltac:(by autorewrite with fr_thr)) as HM.
  unfold do_step. rewrite Ht. cbn [exec]. unfold ended. prj. rewrite rx_shutdown_uq, rx_shutdown_ws1, rx_shutdown_wsA. autorewrite with fr_rxc.
  split_and!; try done. cbn in HM. cbn. lia.
Qed.
