(** Actors on executors: what a message to stop comes from. *)
From stdpp Require Import base numbers list list_numbers.
From Coq Require Import Lia.
From Verif Require Import Prio Heap State Model HeapProofs Frame Lib InvBusy InvCount Effects InvMsg InvOne InvOne2 InvFut InvCell WaitSpec InvWs InvBc Mono Events Spec Bridge FinishSpec FinishProofs
  InvHeap InvDisc InvWait InvErr InvBprio FinalC FinalE FinalF FinalG FinalI ClaimsA ClaimsB ClaimsC ClaimsE ClaimsN System SystemSpec SystemProofs SystemInv SystemEnd SystemLost StopSpec SystemStop SystemNext ClaimsO.

(** ** The end-of-life signal *)
Definition o_shut (x : one) : Prop := o_st x ≠ OFull CShutdown.
Definition h_shut (h : holder) : Prop := h_st h ≠ HMsg Shut ∧ h_st h ≠ HDispNew Shut.
Definition nsh (s : state) : Prop := Forall o_shut (ones s).
Lemma nsh_eq s s1 : ones s1 = ones s → nsh s → nsh s1.
Proof. unfold nsh. by intros ->. Qed.
Lemma one_send_nsh k c s : c ≠ CShutdown → nsh s → nsh (fst (one_send k c s)).
Proof.
  intros Hc Ho. unfold one_send. destruct (ones s !! k) as [[[] []]|] eqn:E; try done. cbn [fst].
  eapply (nsh_eq (set_ones _ s)); [by repeat (progress (prj; autorewrite with fr_ones))|]. unfold nsh. prj. apply Forall_insert; [done|]. by intros [= ?].
Qed.
Lemma one_sends_nsh l s : nsh s → nsh (fold_left (λ s o, fst (one_send o CNewBroadcast s)) l s).
Proof. revert s. induction l as [|k l IH]; intros s H; [done|]. cbn. apply IH. by apply one_send_nsh. Qed.
Lemma fulfill_nsh ws m s : nsh s → nsh (fst (fulfill ws m s)).
Proof.
  revert s. induction ws as [|k ws IH]; intros s Hs; cbn; [done|].
  assert (nsh (fst (one_send k (CNewMsg m) s))) as H1 by (by apply one_send_nsh).
  destruct (one_send k (CNewMsg m) s) as [s' []]; cbn [fst] in *; [|by apply IH]. by eapply nsh_eq; [|done].
Qed.
Lemma send_nsh m s : nsh s → nsh (send_broadcast m s).
Proof.
  intros H. unfold send_broadcast. cbv zeta.
  match goal with |- nsh (emit _ (set_tail _ ?x)) => eapply (nsh_eq x); [done|] end. apply one_sends_nsh. eapply nsh_eq; [|done].
  by repeat (progress (prj; autorewrite with fr_ones)).
Qed.
Lemma pop_nsh b s : nsh s → nsh (fst (pop_broadcast b s)).
Proof.
  intros H1. unfold pop_broadcast. destruct (heap_pop _ _) as [[m h]|]; [|done]. cbv zeta.
  case_match; cbn [fst]; [eapply nsh_eq; [|done]; by repeat (progress (prj; autorewrite with fr_ones))|].
  match goal with |- context [take_waitingA ?x] => assert (nsh (fst (take_waitingA x))) as H3 end.
  { eapply nsh_eq; [|done]. by repeat (progress (prj; autorewrite with fr_ones)). }
  match goal with |- context [take_waitingA ?x] => destruct (take_waitingA x) as [s3 [z|]] end; cbn [fst] in *; [|done]. apply send_nsh, H3.
Qed.
Lemma close_nsh l s : nsh s → nsh (fold_left close_one l s).
Proof.
  revert s. induction l as [|k l IH]; intros s H; [done|]. cbn. apply IH. unfold close_one. destruct (ones s !! k) as [[rx []]|] eqn:E; try done.
  all: try (eapply nsh_eq; [|done]; by repeat (progress (prj; autorewrite with fr_ones))).
  all: eapply (nsh_eq (set_ones _ s)); [by repeat (progress (prj; autorewrite with fr_ones))|]; unfold nsh; prj; apply Forall_insert; done.
Qed.
Lemma exec_nsh u s s1 new : exec u s = (s1, new) → g_tn u = 0 → nsh s → nsh s1.
Proof.
  intros E Hu HS.
  exec_cases u E; unfold panic_recv; try (eapply nsh_eq; [|exact HS]; by repeat (progress (prj; autorewrite with fr_ones))).
  all: try (match goal with |- context [fst (try_fulfill_receiver ?m ?z)] =>
      eapply (nsh_eq (fst (try_fulfill_receiver m z))); [|by apply fulfill_nsh] end; by repeat (progress (prj; autorewrite with fr_ones))).
  all: try (match goal with |- context [fst (pop_broadcast ?b ?z)] =>
      eapply (nsh_eq (fst (pop_broadcast b z))); [|by apply pop_nsh] end; by repeat (progress (prj; autorewrite with fr_ones))).
  all: try (match goal with |- context [<[?k := ?x]> (ones ?z)] =>
      eapply (nsh_eq (set_ones (<[k := x]> (ones z)) z)); [by repeat (progress (prj; autorewrite with fr_ones))|]; apply Forall_insert; done end).
  all: try (by apply send_nsh).
  all: try (apply Forall_app; split; [done|]; by constructor).
Qed.
Definition InvShut (s : state) : Prop := txc s ≠ 0 → nsh s ∧ Forall h_shut (hols s).
Lemma reach_shut s : reach s → InvShut s.
Proof.
  revert s. apply reach_inv; unfold InvShut.
  - intros c _. split; repeat constructor; done.
  - intros s o Hr I H. assert (txc s ≠ 0) as H0 by (intros E; by apply H, txc0_api). destruct (I H0) as [I1 I2]. split.
    + eapply nsh_eq; [|done]. destruct o; cbn [api]; repeat (dgoal; try done); cbv zeta; unfold add_addr; repeat dgoal; by repeat (progress (prj; autorewrite with fr_ones)).
    + clear H H0 I I1. destruct o; cbn [api]; repeat (dgoal; try done); cbv zeta; unfold add_addr; repeat dgoal; repeat (progress (prj; autorewrite with fr_hols)); try done.
      all: try (apply Forall_app; split; [done|]; by repeat constructor).
      all: try match goal with H : hols _ !! ?q = Some _, I2 : Forall h_shut _ |- _ => pose proof (Forall_lookup_1 _ _ _ _ I2 H) as [HX HY] end; cbn in *.
      all: apply Forall_insert; [done|]; unfold h_shut; cbn; split; congruence.
  - intros s t u rest s1 new Hr I Ht E Hthr H. prjin H.
    assert (txc s ≠ 0) as H0 by (intros E0; apply H; pose proof (txc0_exec s u E0) as HX; by rewrite E in HX). destruct (I H0) as [I1 I2].
    assert (g_tn u = 0) as Hu.
    { destruct (reach_ts s Hr) as [T1 _]. pose proof (msum_head g_tn s t u rest Ht). destruct (g_tn u) eqn:Eu; [done|]. exfalso. apply H0, T1. lia. }
    split; [by eapply nsh_eq; [|by eapply exec_nsh]|]. prj.
    exec_cases u E; unfold panic_recv in *; repeat (progress (prj; autorewrite with fr_hols)); try done.
    all: try (apply Forall_app; split; [done|]; by repeat constructor).
    all: try match goal with H : (txc _ =? 0) = true |- _ => by apply Nat.eqb_eq in H end.
    all: try match goal with H : ones _ !! _ = Some (ON _ (OFull CShutdown)) |- _ => pose proof (Forall_lookup_1 _ _ _ _ I1 H) as HX; by destruct HX end.
    all: try (apply Forall_alter; [done|]; intros ? _ _; split; done).
    all: try (apply Forall_alter; [done|]; intros ? _ [? ?]; split; done).
  - intros s Hr I Ho. autorewrite with fr_txc fr_hols. intros H. destruct (I H) as [I1 I2]. split; [|done].
    unfold free_chan. cbv zeta. eapply (nsh_eq (fold_left close_one _ _)); [by repeat (progress (prj; autorewrite with fr_ones))|].
    apply close_nsh. eapply nsh_eq; [|exact I1]. by repeat (progress (prj; autorewrite with fr_ones)).
Qed.

(** ** The broadcast of [stop_all] *)
Definition stp (m : bmsg) : nat := match m with BStop _ => 1 | _ => 0 end.
Definition g_sa (u : micro) : nat := match u with UStopAll => 1 | _ => 0 end.
Definition calm (s : state) : Prop := (PR stp s = 0 ∧ msum g_sa s = 0) ∧ PO stp s.
Lemma exec_calm s t u rest s1 new : reach s → PR stp s = 0 → msum g_sa s = 0 → thr s !! t = Some (u :: rest) → exec u s = (s1, new) → thr s1 = thr s →
  PR stp (set_thr (<[t := new ++ rest]> (thr s1)) s1) = 0 ∧ msum g_sa (set_thr (<[t := new ++ rest]> (thr s1)) s1) = 0.
Proof.
  intros Hr I I0 Ht E Hthr. unfold PR in *.
  pose proof (msum_step (g_b stp) s t u rest new s1 Ht Hthr) as HM.
  pose proof (msum_head (g_b stp) s t u rest Ht) as HH.
  pose proof (msum_step g_sa s t u rest new s1 Ht Hthr) as HM1.
  pose proof (msum_head g_sa s t u rest Ht) as HH1.
  split.
  - clear HM1. revert HM. generalize (msum (g_b stp) (set_thr (<[t:=new ++ rest]> (thr s1)) s1)). intros n HM.
    prj. clear Hthr.
    destruct (reach_ws s Hr) as (_ & WA & _).
    do_exec u E HM ltac:(autorewrite with fr_sfs fr_cellsA fr_log fr_nbm).
    all: rewrite ?rx_shutdown_log0, ?rx_shutdown_cellsA, ?bcell_close by done.
    all: try (destruct (pop_unicast_spec s) as (x & _ & _ & ->); destruct x; cbn).
    all: try match goal with |- context [pop_broadcast ?b ?s] => pose proof (pop_bcc stp b s) end.
    all: try (fin; done).
  - clear HM. revert HM1. generalize (msum g_sa (set_thr (<[t:=new ++ rest]> (thr s1)) s1)). intros n HM.
    prj. clear Hthr I HH. do_exec u E HM ltac:(idtac). all: try (fin; done).
Qed.
Lemma api_calm s o : PR stp s = 0 → msum g_sa s = 0 →
  (PR stp (api o s) = 0 ∧ msum g_sa (api o s) = 0) ∨ ∃ r, o = AStopAll r ∧ in_handler s r.
Proof.
  intros I I0. assert (PR stp (api o s) = 0) as HP.
  { unfold PR in *. do_api o ltac:(autorewrite with fr_sfs fr_cellsA fr_log). }
  assert ((∀ r, o ≠ AStopAll r) → msum g_sa (api o s) = 0) as HS.
  { intros HN. do_api o ltac:(idtac). by destruct (HN r). }
  destruct o as [| | | | | | | | | | | | | | | | | | | | | | | |r| | |]; try (left; split; [done|by apply HS]).
  destruct (hols s !! r) as [[b hs k w]|] eqn:Hh; [destruct hs as [| | | | | |a|]|].
  7: right; exists r; split; [done|]; by eexists _, _.
  all: left; split; [done|]; cbn [api]; by rewrite Hh.
Qed.
Lemma free_calm s : msum g_sa s = 0 → msum g_sa (free_chan s) = 0.
Proof. intros H. rewrite (msum_eq _ s); [done|]. by autorewrite with fr_thr. Qed.
Lemma calm_step s o : reach s → calm s → calm (step s o) ∨ ∃ r, o = AStopAll r ∧ in_handler s r.
Proof.
  intros Hr [[I1 I2] I3].
  assert (∀ s1, reach s1 → calm s1 → calm (collect s1)) as HC.
  { intros s1 Hr1 [[H1 H2] H3]. unfold collect. destruct (chan_owned s1); [done|]. split; [split; [by apply free_PR|by apply free_calm]|by apply free_PO]. }
  unfold step. destruct o as [| | | | | | | | | | | | | | | | | | | | | | | | | | |t].
  1: { left. apply HC; [by constructor|]. unfold do_step. destruct (thr s !! t) as [[|u rest]|] eqn:Ht; [done| |done].
    destruct (exec u s) as [s1 new] eqn:E. pose proof (exec_thr u s) as Hthr. rewrite E in Hthr. cbn in Hthr.
    destruct (exec_calm s t u rest s1 new Hr I1 I2 Ht E Hthr) as [H1 H2]. split; [done|]. eapply exec_PO; eauto. unfold PR in H1. revert H1. prj. lia. }
  all: match goal with I1 : PR stp ?s = 0, I2 : msum g_sa ?s = 0, HC : _ |- context [api ?o ?s] => destruct (api_calm s o I1 I2) as [H|H]; [left; apply HC; [by constructor|]; split; [done|by apply api_PO]|by right] end.
Qed.

(** ** Executions *)
Lemma calm_run c l : calm (ch (sys_run (sys_init c) l)) ∨ all_stopped c l.
Proof.
  induction l as [|x l IH] using rev_ind.
  - left. split; [by split|]. split; [|done]. intros [|b]; done.
  - destruct IH as [IH|(l1 & l2 & r & -> & H)]; [|right; exists l1, (l2 ++ [x]), r; by rewrite <-app_assoc].
    destruct (sys_reach (sys_run (sys_init c) l)) as [Hrr I]; [by exists c, l|]. pose proof (reachable_reach _ Hrr) as Hr. rewrite sys_run_snoc.
    set (y := sys_run (sys_init c) l) in *.
    assert (∀ o, (∀ r, o ≠ AStopAll r) → calm (step (ch y) o)) as HS.
    { intros o Ho. destruct (calm_step (ch y) o Hr IH) as [?|(r & -> & _)]; [done|by destruct (Ho r)]. }
    destruct x as [o|h|j v|j]; cbn [sys_step].
    + destruct (foreign y o); [|by left]. cbn [ch]. destruct (calm_step (ch y) o Hr IH) as [?|(r & -> & H)]; [by left|right]. by exists l, [], r.
    + left. by repeat case_match.
    + left. destruct (tk y !! j) as [t|]; [|done]. destruct (task_step t v (ch y)) as [[s' st]|] eqn:E; [|done]. cbn [ch].
      destruct (task_cases _ _ _ _ _ E) as [(-> & _)|[(_ & -> & _)|[(r & h & o & _ & _ & Ho & -> & _)|(_ & -> & _)]]]; [done|by apply HS|apply HS|by apply HS].
      unfold await_op in Ho. destruct h as [b hs k w]. cbn in Ho. intros q ->. by destruct hs.
    + left. destruct (tk y !! j) as [t|]; [|done]. destruct (task_cancel t (ch y)) as [[s' st]|] eqn:E; [|done]. cbn [ch].
      destruct (cancel_cases _ _ _ _ E) as (_ & _ & [[-> _]|(r & h & _ & _ & -> & _)]); [done|by apply HS].
Qed.
Lemma no_txc s : reachable s → txc s = 0 → no_strong s.
Proof. intros Hr H. pose proof (c20 s Hr) as HC. unfold no_strong. lia. Qed.
Lemma stop_cause_msg c l r : let y := sys_run (sys_init c) l in got_stop (ch y) r → all_stopped c l ∨ no_strong (ch y).
Proof.
  intros y (h & a & Hh & Hs & Ha). destruct (sys_reach y) as [Hrr I]; [by exists c, l|]. pose proof (reachable_reach _ Hrr) as Hr.
  destruct Ha as [-> |[n ->]].
  - right. apply no_txc; [done|]. destruct (decide (txc (ch y) = 0)) as [|Hn]; [done|]. exfalso. destruct (reach_shut (ch y) Hr Hn) as [_ HF].
    destruct (Forall_lookup_1 _ _ _ _ HF Hh). by destruct Hs.
  - destruct (calm_run c l) as [[_ [_ HC]]|?]; [exfalso|by left]. fold y in HC. pose proof (sum_lookup (h_b stp) _ _ _ Hh) as HL. unfold h_b in HL at 1. destruct Hs as [Hs|Hs]; rewrite Hs in HL; cbn in HL; lia.
Qed.
Lemma no_strong_later c l l' : no_strong (ch (sys_run (sys_init c) l)) → no_strong (ch (sys_run (sys_init c) (l ++ l'))).
Proof.
  intros H. assert (txc (ch (sys_run (sys_init c) l)) = 0) as H0.
  { destruct (sys_reach (sys_run (sys_init c) l)) as [Hrr I]; [by exists c, l|]. pose proof (c20 _ Hrr) as HC. unfold no_strong in H. lia. }
  apply no_txc; [apply (sys_reach (sys_run (sys_init c) (l ++ l'))); by exists c, (l ++ l')|]. clear H.
  induction l' as [|x l' IH] using rev_ind; [by rewrite app_nil_r|]. rewrite app_assoc, sys_run_snoc.
  destruct (sys_reach (sys_run (sys_init c) (l ++ l'))) as [Hrr I]; [by exists c, (l ++ l')|]. pose proof (reachable_reach _ Hrr) as Hr.
  destruct (ch_step (sys_run (sys_init c) (l ++ l')) x) as [-> |[o ->]]; [done|]. by apply txc0_step.
Qed.
Lemma stop_cause c l i : let y := sys_run (sys_init c) l in stopping_task y i →
  start_failed c l i ∨ cancelled c l i ∨ self_stopped c l i ∨ all_stopped c l ∨ no_strong (ch y).
Proof.
  intros y Hy. destruct (stop_reason c l i Hy) as [?|[?|[?|(l1 & l2 & r & -> & H & _)]]]; [by left|by right; left|by right; right; left|]. do 3 right.
  destruct (stop_cause_msg c l1 r H) as [(k1 & k2 & q & -> & Hq)|Hn]; [left|right; by apply no_strong_later].
  exists k1, (k2 ++ l2), q. by rewrite <-app_assoc.
Qed.

(** ** Actors that nobody stops *)
Lemma leads_and P Q y : leads P y → leads Q y → leads (λ z, P z ∧ Q z) y.
Proof.
  induction 1 as [y H1 IH H2]. intros HQ. inversion HQ as [y' Q1 Q2]; subst. constructor; [intros l Hl; apply IH; auto|]. intros Hn. split; auto.
Qed.
Lemma exec_addrs u s s1 new : exec u s = (s1, new) → addrs s1 = addrs s.
Proof. intros E. exec_cases u E; unfold panic_recv, panic_send, send_out; by repeat (progress (prj; autorewrite with fr_addrs)). Qed.
Lemma collect_addrs s : addrs (collect s) = addrs s.
Proof. unfold collect. destruct (chan_owned s); [done|]. by autorewrite with fr_addrs. Qed.
Lemma inner_addrs y l : inner y l → addrs (ch (sys_step y l)) = addrs (ch y).
Proof.
  intros [(t & u & -> & [rest Ht])|(i & v & t & [s' st] & -> & Ht & E)]; cbn [sys_step foreign ch].
  - unfold step. rewrite collect_addrs. unfold do_step. rewrite Ht. destruct (exec u (ch y)) as [s1 new] eqn:E. by apply exec_addrs in E.
  - rewrite Ht, E. cbn [ch].
    destruct (task_cases _ _ _ _ _ E) as [(-> & _)|[(_ & -> & _)|[(r & h & o & _ & Hh & Ho & -> & _)|(_ & -> & _)]]]; [done|..].
    all: unfold step; first [rewrite collect_addrs|idtac].
    + cbn [api]. repeat dgoal; done.
    + unfold await_op in Ho. destruct h as [b hs k w]. cbn in Ho. destruct hs; try done; injection Ho as <-; cbn [api]; rewrite Hh; repeat (dgoal; try done); done.
    + cbn [api]. repeat dgoal; done.
Qed.
Lemma task_st t : t_st t = TStart ∨ (t_st t = TLoop ∨ ∃ r, t_st t = TAwait r) ∨ (t_st t = TStop ∨ t_st t = TDrop ∨ t_st t = TDone).
Proof. destruct (t_st t); eauto 6. Qed.
Lemma working_step c k x i : let z := sys_run (sys_init c) k in x ≠ SCancel i → no_stops (k ++ [x]) → working z i → ¬ no_strong (ch (sys_step z x)) → working (sys_step z x) i.
Proof.
  intros z Hxc HN (t & Ht & Hs) Hst. pose proof (sys_run_snoc (sys_init c) k x) as Ez. fold z in Ez.
  assert (∃ t', tk (sys_step z x) !! i = Some t') as [t' Ht'].
  { apply lookup_lt_is_Some_2. apply lookup_lt_Some in Ht. pose proof (tk_len z x). lia. }
  destruct (task_st t') as [H|[H|H]]; [exfalso|by exists t'|exfalso].
  - destruct (tk_back z x i t' Ht') as [[H1 _]|[[H1 _]|[(t0 & v & s' & -> & H1 & E & _)|(t0 & s' & -> & _)]]]; [| | |done]; rewrite Ht in H1; try done.
    + injection H1 as <-. rewrite H in Hs. by destruct Hs as [?|[? ?]].
    + injection H1 as <-. rewrite H in E. unfold task_step in E. destruct (t_st t); repeat case_match; done.
  - assert (stopping_task (sys_run (sys_init c) (k ++ [x])) i) as HS by (rewrite Ez; by exists t').
    destruct (stop_cause _ _ _ HS) as [(l1 & v & l2 & t1 & E & Hv & Ht1 & Es)|[(l1 & l2 & E & Ha)|[(l1 & l2 & r & E & _)|[(l1 & l2 & r & E & _)|Hn]]]].
    + change (STask i v :: l2) with ([STask i v] ++ l2) in E. rewrite app_assoc in E.
      destruct (snoc_split k x (l1 ++ [STask i v]) l2 E) as [[-> E1]|(l3 & -> & E1)].
      * apply app_inj_tail in E1 as [-> _]. fold z in Ht1. rewrite Ht in Ht1. injection Ht1 as <-. rewrite Es in Hs. by destruct Hs as [?|[? ?]].
      * destruct (start_error c k i) as (_ & _ & H3). destruct H3 as [_ (t2 & Ht2 & H2)]; [exists l1, v, l3, t1; rewrite E1, <-app_assoc; done|].
        fold z in Ht2. rewrite Ht in Ht2. injection Ht2 as <-. destruct H2 as [H2|H2]; rewrite H2 in Hs; by destruct Hs as [?|[? ?]].
    + change (SCancel i :: l2) with ([SCancel i] ++ l2) in E. rewrite app_assoc in E.
      destruct (snoc_split k x (l1 ++ [SCancel i]) l2 E) as [[-> E1]|(l3 & -> & E1)]; [by apply app_inj_tail in E1 as [_ <-]|].
      destruct (cancelled_drops c k i) as (t2 & Ht2 & H2); [exists l1, l3; by rewrite E1, <-app_assoc|].
      fold z in Ht2. rewrite Ht in Ht2. injection Ht2 as <-. destruct H2 as [H2|H2]; rewrite H2 in Hs; by destruct Hs as [?|[? ?]].
    + destruct (HN r) as [H1 _]. apply H1. rewrite E. apply elem_of_app. right. left.
    + destruct (HN r) as [_ H1]. apply H1. rewrite E. apply elem_of_app. right. left.
    + by rewrite Ez in Hn.
Qed.
Lemma inner_calls y x r : inner y x → x ≠ SCall (AStopSelf r) ∧ x ≠ SCall (AStopAll r) ∧ ∀ a, x ≠ SCall (ADropAddr a).
Proof. intros [(t & u & -> & _)|(i & v & t & z & -> & _)]; done. Qed.
Lemma keeps_working c l i : let y := sys_run (sys_init c) l in no_stops l → working y i → 0 < strong_addresses (ch y) →
  leads (λ z, working z i) y.
Proof.
  intros y HN Hw Hs. apply (leads_all (λ z, ∃ k, z = sys_run (sys_init c) k ∧ no_stops k ∧ working z i ∧ 0 < strong_addresses (ch z))).
  - intros z (k & -> & _). by exists c, k.
  - intros z x (k & -> & H1 & H2 & H3) Hx. exists (k ++ [x]). rewrite sys_run_snoc. split; [done|].
    assert (no_stops (k ++ [x])) as HN1.
    { intros r. destruct (H1 r), (inner_calls _ _ r Hx) as (? & ? & _). split; rewrite elem_of_app, elem_of_list_singleton; naive_solver. }
    assert (0 < strong_addresses (ch (sys_step (sys_run (sys_init c) k) x))) as HS by (unfold strong_addresses in *; by rewrite (inner_addrs _ _ Hx)).
    split; [done|]. split; [|done]. apply working_step; [by apply (inner_plain _ _ Hx)|done..|]. unfold no_strong. lia.
  - intros z (k & -> & H1 & H2 & H3) _. done.
  - exists l. done.
Qed.
Lemma leads_impl (P Q : sys → Prop) y : (∀ z, P z → Q z) → leads P y → leads Q y.
Proof. intros H. induction 1 as [y H1 IH H2]. constructor; auto. Qed.
Lemma service c l i : let y := sys_run (sys_init c) l in hands_off l → uncancelled l → no_stops l → working y i → 0 < strong_addresses (ch y) →
  leads (λ z, working z i ∧ ∀ m, happened (EvAccept m) (ch z) → ∃ v, happened (EvDone m v) (ch z)) y.
Proof.
  intros y H1 H1' H2 H3 H4. eapply leads_impl; [|apply leads_and; [by apply (keeps_working c l i)|by apply (no_message_left c l)]].
  cbn. intros z [Hw Hd]. split; [done|]. apply Hd. destruct Hw as (t & Ht & Hs). exists i, t. split; [done|]. destruct Hs as [-> |[? ->]]; done.
Qed.
