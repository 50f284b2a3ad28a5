(** Messages before and after the lock of the channel, for the model of spans. *)
From stdpp Require Import base numbers list list_numbers.
From Coq Require Import Lia.
From Verif Require Import Prio Heap State Model HeapProofs Frame Lib InvBusy InvCount Effects InvMsg InvMsg2
  InvHeap InvOne InvOne2 InvDisc InvFut InvCell WaitSpec InvWs Mono Events InvErr InvBc Spec Bridge FinalE FinalF Spec2 InvBprio Span SpanSpec.

Definition cw (w : who) (p : payload) : nat :=
  match w, p with One i, PU m => is i m | All i, PB m => ibm i m | _, _ => 0 end.
Definition dw (w : who) (p : payload) : nat :=
  match who_p p with Some v => if whoeqb w v then 1 else 0 | None => 0 end.
Lemma dw_cw w p : dw w p ≤ cw w p.
Proof. unfold dw. destruct w, p as [u|[j v|j]]; cbn; unfold is, ibm, isn; cbn; try lia; rewrite Nat.eqb_sym; lia. Qed.
Definition f_w (w : who) (x : sfut) : nat := match sf_st x with SNew p _ => cw w p | _ => 0 end.
Definition g_w (w : who) (u : micro) : nat :=
  match u with USendLd1 _ p _ | USendLd2 _ p _ | USendLock _ p _ => cw w p | _ => 0 end.
Definition pre (w : who) (s : state) : nat := Σ (f_w w) (sfs s) + msum (g_w w) s.
Definition born (w : who) (s : state) : nat := match w with One i => lt1 i (length (reps s)) | All i => lt1 i (nbm s) end.
Definition ib (i : nat) (m : bmsg) : nat := match m with BM j _ => isn i j | BStop _ => 0 end.
Definition post (w : who) (s : state) : nat :=
  match w with
  | One i => Σ (ccell (is i)) (cells1 s) + Σ (e_acc i) (log s)
  | All i => Σ (bcell (ib i)) (cellsA s) + Σ (e_b (ib i)) (log s)
  end.
(** The message whose lock is taken in this step. *)
Definition locks (s : state) (o : op) : option payload :=
  match o with
  | Step t => match thr s !! t with Some (USendLock _ p _ :: _) => Some p | _ => None end
  | _ => None
  end.
Definition dlk (w : who) (s : state) (o : op) : nat := match locks s o with Some p => dw w p | None => 0 end.
Definition lk (w : who) (s : state) (o : op) : nat := match locks s o with Some p => cw w p | None => 0 end.

Lemma lt1_S_le i n : lt1 i n ≤ lt1 i (S n).
Proof. rewrite lt1_S. lia. Qed.
Lemma pre_api w s o : reach s → pre w (api o s) + born w s ≤ pre w s + born w (api o s).
Proof.
  intros Hr. unfold pre. destruct w as [i|i]; cbn [born].
  all: do_api o ltac:(autorewrite with fr_sfs fr_nbm fr_reps fr_lreps).
  all: rewrite ?app_length; cbn [length]; rewrite ?Nat.add_1_r, ?lt1_S; unfold is; cbn [um_id]; try lia.
  all: unfold is, ibm in *; cbn [um_id bm_id] in *; lia.
Qed.
Lemma pre_exec w s t u rest s1 new : reach s → thr s !! t = Some (u :: rest) → exec u s = (s1, new) → thr s1 = thr s →
  pre w (set_thr (<[t := new ++ rest]> (thr s1)) s1) + lk w s (Step t) + born w s ≤ pre w s + born w s1.
Proof.
  intros Hr Ht E Hthr. unfold pre, lk, locks. rewrite Ht.
  pose proof (msum_step (g_w w) s t u rest new s1 Ht Hthr) as HM.
  pose proof (msum_head (g_w w) s t u rest Ht) as HH.
  revert HM. generalize (msum (g_w w) (set_thr (<[t:=new ++ rest]> (thr s1)) s1)). intros n HM.
  prj. clear Hthr Ht.
  destruct w as [i|i]; cbn [born].
  all: do_exec u E HM ltac:(autorewrite with fr_sfs fr_nbm fr_reps fr_lreps).
  all: rewrite ?lt1_S.
  all: try lia.
  all: unfold cw, is, ibm in *; try (fin; done).
Qed.
Lemma pre_free w s : pre w (free_chan s) = pre w s ∧ born w (free_chan s) = born w s.
Proof.
  unfold pre. rewrite (msum_eq _ s) by (autorewrite with fr_thr; done). autorewrite with fr_sfs.
  destruct w; cbn [born]; autorewrite with fr_nbm fr_lreps; done.
Qed.
Definition e_cl (i : nat) (e : ev) : nat := match e with EvDrop m DClosed => isn i m | _ => 0 end.
Lemma sum_two {A} (g h : A → nat) l : Σ (λ x, g x + h x) l = Σ g l + Σ h l.
Proof. induction l as [|x l IH]; simpl; [done|]. rewrite IH. lia. Qed.
Lemma close_post i s s' : logx s s' →
  Σ (ccell (is i)) (cells1 s') + Σ (λ e, e_acc i e + e_cl i e) (log s') = Σ (ccell (is i)) (cells1 s) + Σ (λ e, e_acc i e + e_cl i e) (log s) →
  Σ (ccell (is i)) (cells1 s') + Σ (e_acc i) (log s') ≤ Σ (ccell (is i)) (cells1 s) + Σ (e_acc i) (log s).
Proof. intros [k Hk]. rewrite !sum_two, Hk, !sum_list_with_app. lia. Qed.
Lemma post_free w s : reach s → post w (free_chan s) ≤ post w s.
Proof.
  intros Hr. destruct w as [i|i]; cbn [post].
  - apply close_post; [apply free_logx|]. apply free_meas; [|done]. intros m. unfold is. cbn. lia.
  - destruct (reach_ws s Hr) as (_ & WA & _). rewrite free_cellsA, bcell_close, free_log0 by done. lia.
Qed.
Lemma post_api w s o : reach s → post w (api o s) = post w s.
Proof.
  intros Hr. destruct w as [i|i]; cbn [post].
  all: do_api o ltac:(autorewrite with fr_cells1 fr_cellsA fr_log).
Qed.
Lemma post_exec w s t u rest s1 new : reach s → thr s !! t = Some (u :: rest) → exec u s = (s1, new) → thr s1 = thr s →
  post w (set_thr (<[t := new ++ rest]> (thr s1)) s1) ≤ post w s + dlk w s (Step t).
Proof.
  intros Hr Ht E Hthr. unfold dlk, locks. rewrite Ht.
  assert (0 + 0 = 0) as HM by done.
  destruct (reach_ws s Hr) as (_ & WA & _).
  clear Hthr Ht.
  destruct w as [i|i]; cbn [post]; prj.
  - do_exec u E HM ltac:(autorewrite with fr_cells1 fr_log).
    all: repeat (progress (prj; autorewrite with fr_log)); effects (is i).
    all: try (unfold is in *; fin; done).
    1: { rewrite Nat.add_0_r. apply close_post; [eapply (exec_logx URxShutdown); done|]. apply rx_shutdown_meas; [|done]. intros m. unfold is. cbn. lia. }
    all: unfold dw, is; cbn [ccell e_acc who_p whoeqb]; unfold isn; rewrite ?(Nat.eqb_sym i); case_match; lia.
  - do_exec u E HM ltac:(autorewrite with fr_cellsA fr_log).
    all: rewrite ?rx_shutdown_log0, ?rx_shutdown_cellsA, ?bcell_close by done.
    all: try (destruct (pop_unicast_spec s) as (x & _ & _ & ->); destruct x; cbn).
    all: try match goal with |- context [pop_broadcast ?b ?s] => pose proof (pop_bcc (ib i) b s) end.
    all: try (fin; done).
    all: unfold dw; cbn [sum_list_with bcell e_b who_p]; destruct b as [j v|j]; cbn [ib who_b whoeqb]; unfold isn; rewrite ?(Nat.eqb_sym i); try case_match; cbn; lia.
Qed.

Lemma pre_step w s o : reach s → pre w (step s o) + lk w s o + born w s ≤ pre w s + born w (step s o).
Proof.
  intros Hr. unfold step.
  assert (∀ x, pre w x + lk w s o + born w s ≤ pre w s + born w x → pre w (collect x) + lk w s o + born w s ≤ pre w s + born w (collect x)) as HC.
  { intros x H. unfold collect. destruct (chan_owned x); [done|]. destruct (pre_free w x) as [-> ->]. done. }
  apply HC. destruct o; try (unfold lk, locks; rewrite Nat.add_0_r; by apply pre_api).
  unfold do_step. destruct (thr s !! t) as [[|u rest]|] eqn:Ht; try (unfold lk, locks; rewrite Ht; lia).
  destruct (exec u s) as [s1 new] eqn:E. pose proof (exec_thr u s) as H. rewrite E in H. cbn in H.
  pose proof (pre_exec w s t u rest s1 new Hr Ht E H) as HP. destruct w; exact HP.
Qed.
Lemma post_step w s o : reach s → post w (step s o) ≤ post w s + dlk w s o.
Proof.
  intros Hr. unfold step.
  assert (∀ x, reach x → post w x ≤ post w s + dlk w s o → post w (collect x) ≤ post w s + dlk w s o) as HC.
  { intros x Hx H. unfold collect. destruct (chan_owned x); [done|]. pose proof (post_free w x Hx). lia. }
  apply HC. { destruct o; try (by apply reach_api). by apply reach_step. }
  destruct o; try (rewrite post_api by done; lia).
  unfold do_step. destruct (thr s !! t) as [[|u rest]|] eqn:Ht; try lia.
  destruct (exec u s) as [s1 new] eqn:E. pose proof (exec_thr u s) as H. rewrite E in H. cbn in H.
  by eapply post_exec.
Qed.

(** A message that a handler runs for went through the lock. *)
Lemma reach_POc c s : reach s → Σ (e_b c) (log s) = 0 → PO c s.
Proof.
  revert s. apply (reach_inv (λ s, Σ (e_b c) (log s) = 0 → PO c s)).
  - intros c' _. split; [|done]. intros [|b]; done.
  - intros s o Hr I H. apply api_PO, I; [done|]. destruct (api_logx o s) as [k Hk]. rewrite Hk, sum_list_with_app in H. lia.
  - intros s t u rest s1 new Hr I Ht E Hthr H. eapply exec_PO; eauto. apply I. destruct (exec_logx _ _ _ _ E) as [k Hk].
    revert H. prj. rewrite Hk, sum_list_with_app. lia.
  - intros s Hr I Ho H. apply free_PO, I. destruct (free_logx s) as [k Hk]. rewrite Hk, sum_list_with_app in H. lia.
Qed.
Lemma disp_post s r h a w : reach s → hols s !! r = Some h → h_st h = HDispNew a → who_a a = Some w → 0 < post w s.
Proof.
  intros Hr Hh Hs Hw. destruct a as [m|b|]; cbn in Hw; [injection Hw as <-|destruct b as [j v|j]; [injection Hw as <-|done]|done]; cbn [post].
  - pose proof (reach_C s Hr (um_id m)) as HC. pose proof (reach_B s Hr (um_id m)) as HB.
    pose proof (sum_lookup (h_msg (um_id m)) _ _ _ Hh) as HL. unfold h_msg in HL at 1. rewrite Hs in HL. unfold is, isn in HL. rewrite Nat.eqb_refl in HL.
    assert (Σ (e_recv (um_id m)) (log s) ≤ Σ (e_mid (um_id m)) (log s)) as HE.
    { clear. induction (log s) as [|e l IH]; simpl; [done|]. enough (e_recv (um_id m) e ≤ e_mid (um_id m) e) by lia. destruct e as [| | | |? []| | | | | | | | | | | |]; cbn; lia. }
    lia.
  - destruct (decide (Σ (e_b (ib j)) (log s) = 0)) as [H0|]; [|lia].
    destruct (reach_POc (ib j) s Hr H0) as [_ HP]. pose proof (sum_lookup (h_b (ib j)) _ _ _ Hh) as HL. unfold h_b in HL at 1. rewrite Hs in HL.
    cbn in HL. unfold isn in HL. rewrite Nat.eqb_refl in HL. lia.
Qed.

(** Calls that carry an unsent message. *)
Definition sends (u : micro) : option payload := match u with USendLd1 _ p _ | USendLd2 _ p _ | USendLock _ p _ => Some p | _ => None end.
Lemma exec_sends u s s1 new v p : exec u s = (s1, new) → v ∈ new → sends v = Some p → sends u = Some p.
Proof.
  intros E Hv Hp.
  exec_cases u E; unfold tx_drop, rx_drop in Hv; repeat (case_match; try done); rewrite ?elem_of_app, ?elem_of_cons, ?elem_of_nil in Hv.
  all: repeat match goal with H : _ ∨ _ |- _ => destruct H | H : False |- _ => destruct H end; subst; try done.
  all: try (apply elem_of_list_fmap in Hv as (? & -> & _); done).
  all: match goal with H : _ ∈ payload_drop ?q _ |- _ => destruct q; cbn in H; [apply elem_of_list_singleton in H; by subst|by apply elem_of_nil in H] end.
Qed.
Lemma drop_sends x l v : sf_drop x = Some l → v ∈ l → sends v = None.
Proof.
  unfold sf_drop, payload_drop, tx_drop. intros H Hv. apply elem_of_list_In in Hv. repeat (case_match; try done); injection H as <-; cbn in Hv.
  all: repeat match goal with H : _ ∨ _ |- _ => destruct H | H : False |- _ => destruct H end; by subst.
Qed.
Lemma hdrop_sends x l v : hol_drop x = Some l → v ∈ l → sends v = None.
Proof.
  unfold hol_drop, amsg_drop, rx_drop. intros H Hv. apply elem_of_list_In in Hv. repeat (case_match; try done); injection H as <-; cbn in Hv.
  all: repeat match goal with H : _ ∨ _ |- _ => destruct H | H : False |- _ => destruct H end; by subst.
Qed.
Lemma api_sends o s v p t th : thr (api o s) !! t = Some th → v ∈ th → sends v = Some p →
  (∃ th', thr s !! t = Some th' ∧ v ∈ th') ∨
  t = length (thr s) ∧ ∃ f sf k, o = APollSend f ∧ sfs s !! f = Some sf ∧ sf_live sf = true ∧ sf_st sf = SNew p k.
Proof.
  intros Ht Hv Hp.
  assert (∀ x, thr x = thr s → thr x !! t = Some th → ∃ th', thr s !! t = Some th' ∧ v ∈ th') as H0 by (intros x -> H; eauto).
  assert (∀ x q, thr x = thr s ++ [q] → thr x !! t = Some th → (∃ th', thr s !! t = Some th' ∧ v ∈ th') ∨ t = length (thr s) ∧ v ∈ q) as H1.
  { intros x q -> H. apply lookup_app_Some in H as [H|[Hl H]]; [left; eauto|]. right.
    destruct (t - length (thr s)) as [|n] eqn:En; [|by destruct n]. cbn in H. injection H as <-. split; [lia|done]. }
  destruct o; cbn [api] in Ht; repeat (dmatch Ht; cbv zeta in Ht); cbv zeta in Ht.
  all: try (left; eapply H0; [|exact Ht]; repeat (progress (prj; autorewrite with fr_thr)); done).
  all: eapply H1 in Ht as [Ht|[Hl Hq]]; [by left| |repeat (progress (prj; autorewrite with fr_thr)); reflexivity]; right; split; [done|].
  all: unfold tx_drop, rx_drop in Hq; repeat (case_match; try done); subst; rewrite ?elem_of_app, ?elem_of_cons, ?elem_of_nil in Hq.
  all: repeat match goal with H : _ ∨ _ |- _ => destruct H | H : False |- _ => destruct H end; subst; try done.
  all: try match goal with E : sf_drop _ = Some ?l, H : _ ∈ ?l |- _ => by rewrite (drop_sends _ _ _ E H) in Hp | E : hol_drop _ = Some ?l, H : _ ∈ ?l |- _ => by rewrite (hdrop_sends _ _ _ E H) in Hp end.
  cbn in Hp. injection Hp as <-. by eexists _, _, _.
Qed.
Lemma thr_collect s : thr (collect s) = thr s.
Proof. unfold collect. case_match; [done|]. by autorewrite with fr_thr. Qed.
Lemma step_sends s o v p t th : thr (step s o) !! t = Some th → v ∈ th → sends v = Some p →
  (∃ th' v', thr s !! t = Some th' ∧ v' ∈ th' ∧ sends v' = Some p) ∨
  t = length (thr s) ∧ ∃ f sf k, o = APollSend f ∧ sfs s !! f = Some sf ∧ sf_live sf = true ∧ sf_st sf = SNew p k.
Proof.
  unfold step. rewrite thr_collect. intros Ht Hv Hp.
  destruct o; try (destruct (api_sends _ _ _ _ _ _ Ht Hv Hp) as [(th' & ? & ?)|?]; [left; by exists th', v|by right]).
  left. unfold do_step in Ht. rename t0 into k.
  destruct (thr s !! k) as [[|u rest]|] eqn:Hk; [by exists th, v| |by exists th, v].
  destruct (exec u s) as [s1 new] eqn:E. pose proof (exec_thr u s) as H. rewrite E in H. cbn in H. cbn in Ht. rewrite H in Ht.
  destruct (decide (k = t)) as [->|Hn]; [|rewrite list_lookup_insert_ne in Ht by done; by exists th, v].
  rewrite list_lookup_insert in Ht by (by eapply lookup_lt_Some). injection Ht as <-.
  exists (u :: rest). apply elem_of_app in Hv as [Hv|Hv]; [|exists v; split_and!; [done|by right|done]].
  exists u. split_and!; [done|by left|by eapply exec_sends].
Qed.
Lemma step_thr_len s o : length (thr s) ≤ length (thr (step s o)).
Proof.
  unfold step. rewrite thr_collect. destruct o.
  { unfold do_step. destruct (thr s !! t) as [[|u rest]|] eqn:Hk; [done| |done].
    destruct (exec u s) as [s1 new] eqn:E. pose proof (exec_thr u s) as H. rewrite E in H. cbn in H. cbn. by rewrite insert_length, H. }
  all: cbn [api]; repeat dgoal; cbv zeta; repeat (progress (prj; autorewrite with fr_thr)); rewrite ?app_length; lia.
Qed.

(** Handlers are invoked by [ARun] only. *)
Lemma handled_app k l : (∀ e, e ∈ k → ∀ r a, e ≠ EvHandle r a) → handled (k ++ l) = handled l.
Proof.
  induction k as [|e k IH]; [done|]. intros H. cbn. rewrite IH by (intros e' He; apply H; by right).
  destruct e; try done. by destruct (H _ (elem_of_list_here _ _) r a).
Qed.
Definition runs (s : state) (o : op) : option (nat * amsg) :=
  match o with
  | ARun r => match hols s !! r with Some (HO _ (HDispNew a) _ _) => match who_a a with Some _ => Some (r, a) | None => None end | _ => None end
  | _ => None
  end.
Lemma step_handled s o : handled (log (step s o)) = match runs s o with Some x => x :: handled (log s) | None => handled (log s) end.
Proof.
  unfold step.
  assert (∀ x, handled (log (collect x)) = handled (log x)) as ->.
  { intros x. unfold collect. case_match; [done|]. destruct (free_evs x) as (k & -> & Hk). apply handled_app.
    intros e He r a ->. by destruct (Hk _ He) as (? & ? & ? & _). }
  destruct o; try (cbn [runs]; match goal with |- context [api ?o s] => destruct (api_evs o s) as [->|(e & -> & He)]; [done|destruct e; done] end).
  - cbn [runs]. unfold do_step. destruct (thr s !! t) as [[|u rest]|] eqn:Hk; [done| |done].
    destruct (exec u s) as [s1 new] eqn:E. prj. destruct (exec_evs _ _ _ _ E) as (k & -> & Hev). apply handled_app.
    intros e He r a ->. apply (Hev _ He).
  - cbn [api runs]. destruct (hols s !! r) as [[b [| | | | |a|a|] k w]|]; try done.
    destruct a as [m|[j v|j]|]; cbn [who_a who_b]; prj; repeat (progress (prj; autorewrite with fr_log)); done.
Qed.

(** A send future is polled for the first time once. *)
Definition fresh1 (w : who) (s : state) : nat := Σ (f_w w) (sfs s).
Lemma fresh_step w s o : fresh1 w (step s o) + born w s ≤ fresh1 w s + born w (step s o).
Proof.
  unfold step, fresh1.
  assert (∀ x, Σ (f_w w) (sfs (collect x)) = Σ (f_w w) (sfs x) ∧ born w (collect x) = born w x) as HC.
  { intros x. unfold collect. destruct (chan_owned x); [done|]. split; [by autorewrite with fr_sfs|]. destruct (pre_free w x) as [_ ->]. done. }
  destruct (HC (match o with Step t => do_step t s | _ => api o s end)) as [-> ->]. clear HC.
  assert (∀ o, Σ (f_w w) (sfs (api o s)) + born w s ≤ Σ (f_w w) (sfs s) + born w (api o s)) as HA.
  { intros o'. destruct w as [i|i]; cbn [born].
    all: do_api o' ltac:(autorewrite with fr_sfs fr_nbm fr_reps fr_lreps).
    all: rewrite ?app_length; cbn [length]; rewrite ?Nat.add_1_r, ?lt1_S; unfold is; cbn [um_id]; try lia.
    all: unfold is, ibm in *; cbn [um_id bm_id] in *; lia. }
  destruct o; try apply HA.
  unfold do_step. destruct (thr s !! t) as [[|u rest]|] eqn:Ht; try lia.
  destruct (exec u s) as [s1 new] eqn:E. prj. clear Ht HA.
  enough (Σ (f_w w) (sfs s1) + born w s ≤ Σ (f_w w) (sfs s) + born w s1) as H by (destruct w; exact H).
  assert (0 + 0 = 0) as HM by done.
  destruct w as [i|i]; cbn [born].
  all: do_exec u E HM ltac:(autorewrite with fr_sfs fr_nbm fr_reps fr_lreps).
  all: rewrite ?lt1_S; try lia.
  all: unfold cw, is, ibm in *; try (fin; done).
Qed.
Lemma born_le w s : born w s ≤ 1.
Proof. destruct w; unfold born, lt1; case_match; lia. Qed.
Lemma born_step w s o : born w s ≤ born w (step s o).
Proof.
  unfold step.
  assert (∀ x, born w (collect x) = born w x) as ->.
  { intros x. unfold collect. destruct (chan_owned x); [done|]. by destruct (pre_free w x) as [_ ->]. }
  assert (∀ o, born w s ≤ born w (api o s)) as HA.
  { intros o'. destruct w as [i|i]; cbn [born].
    all: do_api o' ltac:(autorewrite with fr_nbm fr_reps fr_lreps).
    all: rewrite ?app_length; cbn [length]; rewrite ?Nat.add_1_r, ?lt1_S; lia. }
  destruct o; try apply HA.
  unfold do_step. destruct (thr s !! t) as [[|u rest]|] eqn:Ht; try lia.
  destruct (exec u s) as [s1 new] eqn:E. clear Ht HA.
  enough (born w s ≤ born w s1) as H by (destruct w; exact H).
  assert (0 + 0 = 0) as HM by done.
  destruct w as [i|i]; cbn [born].
  all: do_exec u E HM ltac:(autorewrite with fr_nbm fr_reps fr_lreps).
  all: rewrite ?lt1_S; try lia.
Qed.
Lemma poll_first w s f sf p k : sfs s !! f = Some sf → sf_live sf = true → sf_st sf = SNew p k → who_p p = Some w →
  fresh1 w (step s (APollSend f)) + 1 = fresh1 w s.
Proof.
  intros Hf Hl Hs Hw. unfold fresh1, step.
  assert (∀ x, sfs (collect x) = sfs x) as -> by (intros x; unfold collect; destruct (chan_owned x); [done|]; by autorewrite with fr_sfs).
  destruct sf as [st md lv wk]. cbn in Hl, Hs. subst. cbn [api]. rewrite Hf. prj. unfold put_sf. prj.
  pose proof (sum_insert (f_w w) _ _ _ (SF SBusy md true (nwk s)) Hf) as H. unfold f_w in H at 2 4. cbn [sf_st] in H.
  assert (cw w p = 1) as Hc.
  { destruct w, p as [u|[j v|j]]; cbn in Hw |- *; try done; injection Hw as <-; unfold is, ibm, isn; cbn; by rewrite Nat.eqb_refl. }
  rewrite Hc in H. revert H. prj. lia.
Qed.
