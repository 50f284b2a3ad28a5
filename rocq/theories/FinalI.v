(** Priorities (C42), stop_self (C44), cancelled blocked sends (C45). *)
From stdpp Require Import base numbers list list_numbers.
From Coq Require Import Lia.
From Verif Require Import Prio Heap State Model HeapProofs Frame Lib InvBusy InvCount Effects InvMsg InvMsg2
  InvHeap InvOne InvOne2 InvDisc InvWait InvWait2 InvFut InvCell WaitSpec InvWs InvBlk Mono InvSend InvErr Events InvSmall InvRep InvPoll InvBc InvLag InvConn InvEnd Spec Bridge
  FinalA FinalB FinalC FinalD FinalE FinalF FinalG WakeRel InvWake FinalH InvPrio Spec2.

(** ** C42 *)
Lemma lastp_set i l v : lastp i l = Some v → ∃ k l', l = k ++ EvPrio i v :: l' ∧ ∀ n, EvPrio i n ∉ k.
Proof.
  induction l as [|e l IH]; [done|]. cbn. intros H.
  assert ((∃ n, e = EvPrio i n) ∨ (∀ n, e ≠ EvPrio i n) ∧ lastp i l = Some v) as [[n ->]|[Hn Hl]].
  { destruct e; try (right; by split). destruct (Nat.eqb_spec m i) as [->|]; [left; by eexists|right; split; [congruence|done]]. }
  - rewrite Nat.eqb_refl in H. injection H as ->. exists [], l. split; [done|]. by intros n ?%elem_of_nil.
  - destruct (IH Hl) as (k & l' & -> & Hk). exists (e :: k), l'. split; [done|]. intros n [?|?]%elem_of_cons; [by destruct (Hn n)|by eapply Hk].
Qed.
Definition InvLP (s : state) : Prop := ∀ i, i < length (reps s) → lastp i (log s) ≠ None.
Lemma lastp_grow i k l : lastp i l ≠ None → lastp i (k ++ l) ≠ None.
Proof. intros H. induction k as [|e k IH]; [done|]. cbn. destruct e; try done. by case_match. Qed.
Lemma reach_LP s : reach s → InvLP s.
Proof.
  revert s. apply reach_inv; unfold InvLP.
  - intros c i. cbn. lia.
  - intros s o Hr I i Hi. destruct (api_logx o s) as [k Hk]. destruct (decide (i < length (reps s))) as [Hl|Hl]; [rewrite Hk; by apply lastp_grow, I|].
    destruct (api_reps i o s) as [E|(-> & _ & _ & a & ->)]; [apply lookup_lt_is_Some_2 in Hi as [? Hi]; rewrite E in Hi; by apply lookup_lt_Some in Hi|].
    revert Hi Hk. cbn [api]. destruct (addrs s !! a) as [[? ? []]|]; [|lia..]. intros _ _. prj. cbn [lastp]. by rewrite Nat.eqb_refl.
  - intros s t u rest s1 new Hr I Ht E _ i. prj. rewrite (exec_reps_len _ _ _ _ E). intros Hi. destruct (exec_logx _ _ _ _ E) as [k ->]. by apply lastp_grow, I.
  - intros s Hr I _ i. rewrite free_chan_lreps. intros Hi. destruct (free_logx s) as [k ->]. by apply lastp_grow, I.
Qed.
Lemma V_known i s : reach s → 0 < V (is i) s → i < length (reps s).
Proof.
  intros Hr HV. destruct (decide (i < length (reps s))) as [|Hn]; [done|exfalso].
  assert (lt1 i (length (reps s)) = 0) as El by (unfold lt1; by rewrite (proj2 (Nat.ltb_ge i (length (reps s))) ltac:(lia))).
  pose proof (reach_A s Hr i) as A. change (f_pre i) with (f_p (is i)) in A. rewrite V_rest in HV; [lia|done|lia].
Qed.
Lemma exists_V (p : umsg → nat) s k : exists_as s k → p k ≤ V p s.
Proof.
  unfold V. intros [(f & x & b & Hf & Hs)|[(c & w & Hc)|[Hq|[(o & rx & Ho)|[(r & h & Hh & Hs)|(r & He)]]]]].
  - pose proof (sum_lookup (f_p p) _ _ _ Hf) as H. unfold f_p in H at 1. rewrite Hs in H. lia.
  - pose proof (sum_lookup (ccell p) _ _ _ Hc) as H. cbn in H. lia.
  - apply elem_of_list_lookup in Hq as [i Hi]. pose proof (sum_lookup p _ _ _ Hi) as H. lia.
  - pose proof (sum_lookup (oone p) _ _ _ Ho) as H. cbn in H. lia.
  - pose proof (sum_lookup (h_p p) _ _ _ Hh) as H. unfold h_p in H at 1. destruct Hs as [Hs|[Hs|Hs]]; rewrite Hs in H; lia.
  - destruct He as [He|He]; apply elem_of_list_lookup in He as [i Hi]; pose proof (sum_lookup (e_p p) _ _ _ Hi) as H; cbn in H; lia.
Qed.
Lemma prio_last s k : reach s → exists_as s k → last_set s (um_id k) (um_val k).
Proof.
  intros Hr Hk.
  assert (um_id k < length (reps s)) as Hi.
  { apply (V_known _ _ Hr). pose proof (exists_V (is (um_id k)) s k Hk) as H. assert (is (um_id k) k = 1) by (unfold is, isn; by rewrite Nat.eqb_refl). lia. }
  destruct (lastp (um_id k) (log s)) as [v|] eqn:Hl; [|by destruct (reach_LP s Hr _ Hi)].
  pose proof (reach_V s Hr _ _ Hl) as HV. pose proof (exists_V (bad (um_id k) v) s k Hk) as H. rewrite HV in H. unfold bad in H at 1.
  destruct (N.eqb_spec (um_val k) v) as [->|]; [by apply lastp_set|]. unfold is, isn in H. rewrite Nat.eqb_refl in H. lia.
Qed.
Ltac prjin H := revert H; prj; intros H.
Lemma prio_who s o m n : newly s (step s o) (EvPrio m n) →
  (∃ a x, o = ASend a ∧ addrs s !! a = Some x ∧ ad_live x = true ∧ m = length (reps s) ∧ n = 0%N) ∨
  (∃ f x k b, o = APriority f n ∧ sfs s !! f = Some x ∧ sf_live x = true ∧ sf_st x = SNew (PU k) b ∧ um_id k = m).
Proof.
  intros [(? & ? & ?)|H]%step_evs; [done|]. destruct H as (k & Hk & He). unfold between in Hk.
  assert (∀ t, o = Step t → EvPrio m n ∈ k → False) as H0.
  { intros t -> _. unfold do_step in Hk. destruct (thr s !! t) as [[|u rest]|] eqn:Ht; try (apply (app_inv_tail (log s) [] k) in Hk as <-; by apply elem_of_nil in He).
    destruct (exec u s) as [s1 new] eqn:E. destruct (exec_evs _ _ _ _ E) as (k' & Hl & Hs). prjin Hk. rewrite Hl in Hk. apply app_inv_tail in Hk as ->. by apply Hs in He. }
  destruct o; try (by exfalso; eapply H0); clear H0.
  all: try (match type of Hk with log (api ?oo ?ss) = _ => destruct (api_evs oo ss) as [Hl|(e & Hl & Hs)] end; rewrite Hl in Hk;
    [apply (app_inv_tail (log s) [] k) in Hk as <-; by apply elem_of_nil in He
    |apply (app_inv_tail (log s) [e] k) in Hk as <-; apply elem_of_list_singleton in He as <-; cbn in Hs; destruct Hs as [[? ?]|(? & ? & ?)]; done]).
  - left. cbn [api] in Hk. destruct (addrs s !! a) as [[k1 k2 []]|] eqn:Ha.
    2-3: apply (app_inv_tail (log s) [] k) in Hk as <-; by apply elem_of_nil in He.
    exists a, (AD k1 k2 true). split; [done|]. split; [done|]. split; [done|].
    assert (log s = log (if k1 then set_txc (S (txc s)) s else s)) as El by (by destruct k1).
    prjin Hk. rewrite <-El in Hk. apply (app_inv_tail (log s) [_] k) in Hk as <-. apply elem_of_list_singleton in He. by simplify_eq.
  - right. cbn [api] in Hk.
    destruct (sfs s !! f) as [[[[x|x] b| | | |] md [] w]|] eqn:Hf; prjin Hk.
    all: try (apply (app_inv_tail (log s) [] k) in Hk as <-; by apply elem_of_nil in He).
    1: { apply (app_inv_tail (log s) [_] k) in Hk as <-. apply elem_of_list_singleton in He. simplify_eq. exists f, (SF (SNew (PU x) b) md true w), x, b. by split_and!. }
    all: destruct (sf_drop _); prjin Hk; [|apply (app_inv_tail (log s) [] k) in Hk as <-; by apply elem_of_nil in He].
    all: apply (app_inv_tail (log s) [_] k) in Hk as <-; by apply elem_of_list_singleton in He.
Qed.
Lemma owned_new s f x p k : sfs s !! f = Some x → sf_live x = true → sf_st x = SNew p k → chan_owned s = true.
Proof.
  intros Hf Hl Hs. unfold chan_owned. rewrite !orb_true_iff. left. right. apply existsb_exists. exists x. rewrite Hl, Hs. split; [|done].
  by eapply elem_of_list_In, elem_of_list_lookup_2.
Qed.
Lemma prio_sets s f x k b n : sfs s !! f = Some x → sf_live x = true → sf_st x = SNew (PU k) b →
  newly s (step s (APriority f n)) (EvPrio (um_id k) n) ∧
  sfs (step s (APriority f n)) !! f = Some (SF (SNew (PU (UM (um_id k) n)) b) (sf_mode x) true (sf_wk x)).
Proof.
  intros Hf Hl Hs. destruct x as [st md l w]. cbn in Hl, Hs. subst. unfold step. cbn [api]. rewrite Hf.
  match goal with |- context [collect ?y] => set (z := y) end.
  assert (sfs z !! f = Some (SF (SNew (PU (UM (um_id k) n)) b) md true w)) as Hz by (unfold z; prj; apply list_lookup_insert; by eapply lookup_lt_Some).
  rewrite owned_collect by (by eapply owned_new). split; [|done]. exists [EvPrio (um_id k) n]. split; [done|]. by left.
Qed.
Lemma unowned_empty s : reachable s → chan_owned s = false → uq s = [] ∧ ws1 s = [] ∧ wsA s = [] ∧ wrx s = [].
Proof.
  intros (c & ops & ->) Ha. destruct ops as [|o ops _] using rev_ind; [done|].
  rewrite run_app in *. unfold run in *. cbn [fold_left] in *. set (s := fold_left step ops (init c)) in *. unfold step in *.
  set (x := match o with Step t => do_step t s | _ => api o s end) in *.
  unfold collect in *. destruct (chan_owned x) eqn:Ho; [by rewrite Ha in Ho|apply free_empty].
Qed.
Lemma free_noop s : uq s = [] → ws1 s = [] → wsA s = [] → wrx s = [] → free_chan s = set_bqs [] s.
Proof. intros H1 H2 H3 H4. destruct s; cbn in *; subst. done. Qed.
Lemma prio_late s f x n : reachable s → sfs s !! f = Some x → sf_live x = true → sf_st x ≠ SBusy → (∀ p k, sf_st x ≠ SNew p k) →
  between s (step s (APriority f n)) [EvUserPanic f] ∧ channel_same s (step s (APriority f n)) ∧
  cells1 (step s (APriority f n)) = cells1 s ∧ cellsA (step s (APriority f n)) = cellsA s ∧
  reps (step s (APriority f n)) = reps s ∧ ∀ g, g ≠ f → sfs (step s (APriority f n)) !! g = sfs s !! g.
Proof.
  intros Hr Hf Hl Hb Hn. destruct x as [st md l w]. cbn in Hl, Hb, Hn. subst l. unfold step. cbn [api]. rewrite Hf.
  assert (∃ p, sf_drop (SF st md true w) = Some p) as [p Hp] by (destruct st; try done; by eexists).
  match goal with |- context [collect ?y] => set (z := y) end.
  assert (z = emit (EvUserPanic f) (call p (put_sf f (SF SFin md false w) s))) as Ez.
  { unfold z. destruct st as [p0 k0| | | |]; try (by destruct (Hn p0 k0)); try done; by rewrite Hp. }
  assert (∀ g, g ≠ f → sfs z !! g = sfs s !! g) as Hg by (intros g Hg; rewrite Ez; cbn; by rewrite list_lookup_insert_ne).
  assert (chan_owned z = false → uq z = [] ∧ ws1 z = [] ∧ wsA z = [] ∧ wrx z = []) as He.
  { intros Ho. rewrite Ez. change (uq s = [] ∧ ws1 s = [] ∧ wsA s = [] ∧ wrx s = []). apply unowned_empty; [done|].
    destruct (chan_owned s) eqn:Hs; [|done]. exfalso. revert Hs Ho. rewrite Ez. unfold chan_owned. cbn.
    rewrite existsb_app. intros Hs [[[H1 H2]%orb_false_iff H3]%orb_false_iff [H4 _]%orb_false_iff]%orb_false_iff. rewrite H1, H2, H4 in Hs. cbn in Hs.
    rewrite orb_false_r in Hs. apply existsb_exists in Hs as (y & [g Hy]%elem_of_list_In%elem_of_list_lookup & Hy2).
    destruct (decide (g = f)) as [->|Hgf]. { rewrite Hf in Hy. injection Hy as <-. cbn in Hy2. destruct st; try done. by destruct (Hn p0 strong). }
    enough (existsb (λ f, sf_live f && match sf_st f with SNew _ _ => true | _ => false end) (<[f:=SF SFin md false w]> (sfs s)) = true) as E by (by rewrite E in H3).
    apply existsb_exists. exists y. split; [|done]. apply elem_of_list_In. eapply elem_of_list_lookup_2. by rewrite list_lookup_insert_ne. }
  unfold collect. destruct (chan_owned z) eqn:Ho.
  - rewrite Ez in *. unfold channel_same. by split_and!.
  - destruct (He eq_refl) as (E1 & E2 & E3 & E4). rewrite free_noop by done. rewrite Ez in *. unfold channel_same. by split_and!.
Qed.

(** ** C44 *)
Definition g_fl (r : nat) (b : bool) (u : micro) : nat := match u with UFlow q c => if Bool.eqb c b then isn r q else 0 | _ => 0 end.
Definition e_fl (r : nat) (b : bool) (e : ev) : nat := match e with EvFlow q c => if Bool.eqb c b then isn r q else 0 | _ => 0 end.
Definition is_stop (a : amsg) : Prop := a = Shut ∨ ∃ i, a = ToAll (BStop i).
Lemma flow_api r b o s : msum (g_fl r b) (api o s) ≤ msum (g_fl r b) s ∨
  (∃ q a k w, o = ARun r ∧ hols s !! r = Some (HO q (HDispNew a) k w) ∧ is_stop a ∧ b = true) ∨
  (∃ v q a k w, o = AFinish r v ∧ hols s !! r = Some (HO q (HRun a) k w) ∧ b = negb k).
Proof.
  do_api o ltac:(idtac). all: try (left; lia).
  all: match goal with |- context [isn ?r ?q] => destruct (Nat.eqb_spec q r) as [->|Hq]; [|left; unfold isn; rewrite (proj2 (Nat.eqb_neq _ _) Hq); repeat case_match; lia] end.
  1-2: destruct b; [|left; lia]; right; left; eexists _, _, _, _; split_and!; [done|eassumption| |done]; unfold is_stop; eauto.
  all: destruct (Bool.eqb_spec (negb h_run) b) as [<-|]; [|left; lia]; right; right; eexists _, _, _, _, _; split_and!; [done|eassumption|done].
Qed.
Lemma flow_exec r b s t u rest s1 new : thr s !! t = Some (u :: rest) → exec u s = (s1, new) → thr s1 = thr s →
  msum (g_fl r b) (set_thr (<[t := new ++ rest]> (thr s1)) s1) + Σ (e_fl r b) (log s1) = msum (g_fl r b) s + Σ (e_fl r b) (log s).
Proof.
  intros Ht E Hthr.
  pose proof (msum_step (g_fl r b) s t u rest new s1 Ht Hthr) as HM. revert HM.
  generalize (msum (g_fl r b) (set_thr (<[t:=new ++ rest]> (thr s1)) s1)). intros n HM.
  assert ((∃ q c, u = UFlow q c) ∨ (∀ q c, u ≠ UFlow q c)) as [(q & c & ->)|Hn] by (destruct u; eauto; by right).
  - cbn in E. injection E as <- <-. prj. cbn in *. lia.
  - destruct (exec_evs _ _ _ _ E) as (k & -> & Hk). rewrite sum_list_with_app.
    assert (Σ (e_fl r b) k = 0) as ->.
    { apply sum_zero. intros e He. apply Hk in He. destruct e; try done. cbn in He. subst. by destruct (Hn r0 brk). }
    assert (Σ (g_fl r b) new = 0 ∧ g_fl r b u = 0) as [? ?]; [|lia].
    clear -E Hn. exec_cases u E; try done; unfold payload_drop, amsg_drop, tx_drop, rx_drop; repeat case_match; try done. all: try (by destruct (Hn r0 brk)).
    split; [by apply sum_notify|done].
Qed.
Definition early (h : holder) : Prop := (∀ a, h_st h ≠ HRun a) ∧ h_st h ≠ HGone.
Lemma hol_exec r s t u rest s1 new h' : reach s → thr s !! t = Some (u :: rest) → exec u s = (s1, new) → hols s1 !! r = Some h' →
  hols s !! r = Some h' ∨ ((∀ a, h_st h' ≠ HRun a) ∧ ((∃ h, hols s !! r = Some h ∧ early h) ∨ hols s !! r = None)).
Proof.
  intros Hr Ht E. pose proof (busyR_at s t u rest r Hr Ht) as HB. exec_cases u E; repeat (progress (prj; autorewrite with fr_hols)); eauto.
  1: { intros [?|[? H]]%lookup_app_Some; [by left|]. right. destruct (r - length (hols s)); [|done]. cbn in H. injection H as <-. split; [done|]. right. by apply lookup_ge_None. }
  all: match goal with |- alter _ ?q _ !! ?r = _ → _ => destruct (decide (q = r)) as [->|]; [|rewrite list_lookup_alter_ne by done; by left] end.
  all: rewrite list_lookup_alter; destruct HB as (hh & Hh & Hb); [cbn; by rewrite Nat.eqb_refl|].
  all: rewrite Hh; cbn; intros [= <-]; right; split; [done|]; left; exists hh; split; [done|]; unfold early; by rewrite Hb.
Qed.
Lemma hols_exec_len u s s1 new r : exec u s = (s1, new) → hols s1 !! r = None → hols s !! r = None.
Proof.
  intros E. rewrite !lookup_ge_None. exec_cases u E; repeat (progress (prj; autorewrite with fr_hols)); try done; rewrite ?app_length, ?alter_length; try done. cbn. lia.
Qed.
Definition stop_now (o : op) (s : state) (r : nat) : Prop :=
  (o = AStopSelf r ∧ ∃ h a, hols s !! r = Some h ∧ h_st h = HRun a) ∨
  (o = ARun r ∧ ∃ h a, hols s !! r = Some h ∧ h_st h = HDispNew a ∧ is_stop a).
Lemma hol_api r s o h' : hols (api o s) !! r = Some h' →
  hols s !! r = Some h' ∨
  ((∀ a, h_st h' ≠ HRun a) ∧ ((∃ h, hols s !! r = Some h ∧ early h) ∨ hols s !! r = None)) ∨
  (∃ h a, hols s !! r = Some h ∧ early h ∧ h_st h' = HRun a ∧ h_run h' = true) ∨
  (stop_now o s r ∧ ∃ a, h_st h' = HRun a ∧ h_run h' = false) ∨
  h_st h' = HGone.
Proof.
  destruct o; cbn [api]; repeat (dgoal; try by eauto); cbv zeta; unfold add_addr; repeat dgoal;
    repeat (progress (prj; autorewrite with fr_hols)); eauto.
  1: { intros [?|[? H]]%lookup_app_Some; [by left|]. right; left. destruct (r - length (hols s)); [|done]. cbn in H. injection H as <-. split; [done|]. right. by apply lookup_ge_None. }
  all: intros [(<- & <- & _)|[_ ?]]%list_lookup_insert_Some; [|by left]; right; cbn.
  all: try (by right; right; right).
  all: try (left; split; [done|]; left; eexists; split; [eassumption|]; done).
  all: try (right; left; eexists _, _; split; [eassumption|]; done).
  all: right; right; left; split; [left; split; [done|]; by eauto|by eauto].
Qed.
Lemma hols_api_len o s r : hols (api o s) !! r = None → hols s !! r = None.
Proof.
  rewrite !lookup_ge_None. destruct o; cbn [api]; repeat (dgoal; try done); cbv zeta; unfold add_addr; repeat dgoal;
    repeat (progress (prj; autorewrite with fr_hols)); rewrite ?app_length, ?insert_length; try done. cbn. lia.
Qed.
Definition InvFl (P : nat → Prop) (s : state) : Prop := ∀ r,
  (∀ h a, hols s !! r = Some h → h_st h = HRun a → (h_run h = false ↔ P r)) ∧
  (∀ h, hols s !! r = Some h → early h → ¬ P r) ∧
  (hols s !! r = None → ¬ P r) ∧
  (∀ b, 0 < msum (g_fl r b) s + Σ (e_fl r b) (log s) → (b = true ↔ P r) ∧ ∃ h, hols s !! r = Some h ∧ h_st h = HGone).
Lemma early_dec h : early h ∨ (∃ a, h_st h = HRun a) ∨ h_st h = HGone.
Proof. unfold early. destruct (h_st h); eauto. Qed.
Lemma fl_exec P s t u rest s1 new : reach s → InvFl P s → thr s !! t = Some (u :: rest) → exec u s = (s1, new) → thr s1 = thr s →
  InvFl P (set_thr (<[t := new ++ rest]> (thr s1)) s1).
Proof.
  intros Hr I Ht E Hthr r. destruct (I r) as (I1 & I2 & I3 & I4). prj.
  pose proof (λ h', hol_exec r s t u rest s1 new h' Hr Ht E) as HH. pose proof (hols_exec_len u s s1 new r E) as HN. split_and!.
  - intros h a Hh Ha. destruct (HH _ Hh) as [H|[H _]]; [by eapply I1|by destruct (H a)].
  - intros h Hh He. destruct (HH _ Hh) as [H|[_ [(h0 & H & H')|H]]]; [by eapply I2|by eapply I2|by apply I3].
  - intros Hh. by apply I3, HN.
  - intros b. rewrite (flow_exec r b s t u rest s1 new Ht E Hthr). intros Hb. destruct (I4 b Hb) as (H1 & h & H2 & H3). split; [done|].
    destruct (hols s1 !! r) as [h'|] eqn:Hh; [|by rewrite (HN eq_refl) in H2]. exists h'. split; [done|].
    destruct (HH _ eq_refl) as [H|[_ [(h0 & H & H')|H]]]; rewrite H in H2; simplify_eq; [done|]. by destruct H'.
Qed.
Lemma fl_free P s : InvFl P s → InvFl P (free_chan s).
Proof.
  intros I r. destruct (I r) as (I1 & I2 & I3 & I4). autorewrite with fr_hols. split_and!; try done.
  destruct (free_evs s) as (k & -> & Hk). intros b. rewrite sum_list_with_app, (msum_eq _ s) by (autorewrite with fr_thr; done). assert (Σ (e_fl r b) k = 0) as ->; [|apply I4].
  apply sum_zero. intros e He. by destruct (Hk _ He) as (? & ? & -> & _).
Qed.
Lemma fl_api P s o : reach s → InvFl P s → InvFl (λ r, P r ∨ stop_now o s r) (api o s).
Proof.
  intros Hr I r. destruct (I r) as (I1 & I2 & I3 & I4).
  assert (stop_now o s r → (∀ h', hols (api o s) !! r = Some h' → (∃ a, h_st h' = HRun a ∧ h_run h' = false) ∨ h_st h' = HGone) ∧ hols s !! r ≠ None) as HS.
  { intros [(-> & [b st k w] & a & Hh & Ha)|(-> & [b st k w] & a & Hh & Ha & Hs)]; (split; [|by rewrite Hh]); cbn in Ha; subst; cbn [api]; rewrite Hh.
    - prj. rewrite list_lookup_insert by (by eapply lookup_lt_Some). intros h' [= <-]. left. by eexists.
    - destruct Hs as [->|[i ->]]; prj; rewrite list_lookup_insert by (by eapply lookup_lt_Some); intros h' [= <-]; by right. }
  pose proof (λ h', hol_api r s o h') as HH. pose proof (hols_api_len o s r) as HN. split_and!.
  - intros h a Hh Ha. destruct (HH _ Hh) as [H|[[H _]|[(h0 & a0 & H1 & H2 & H3 & H4)|[(H1 & a' & H2 & H3)|H]]]].
    + split; [|intros [?|Hs]; [by eapply I1|]]; [intros ?; left; by eapply I1|]. destruct (HS Hs) as [HS1 _]. destruct (HS1 _ Hh) as [(? & _ & ?)|HG]; [done|by rewrite Ha in HG].
    + by destruct (H a).
    + rewrite H4. split; [done|]. intros [?|Hs]; [by destruct (I2 _ H1 H2)|]. destruct (HS Hs) as [HS1 _]. destruct (HS1 _ Hh) as [(? & _ & E)|HG]; [by rewrite H4 in E|by rewrite Ha in HG].
    + split; [intros _; by right|done].
    + by rewrite Ha in H.
  - intros h Hh He [HP|Hs].
    + destruct (HH _ Hh) as [H|[[_ [(h0 & H1 & H2)|H]]|[(h0 & a0 & H1 & H2 & H3 & H4)|[(H1 & a' & H2 & H3)|H]]]]; try (by eapply I2); try (by apply I3).
      * destruct He as [He _]. by destruct (He a').
      * by destruct He.
    + destruct (HS Hs) as [HS1 _]. destruct (HS1 _ Hh) as [(? & E & _)|HG]; destruct He as [H1 H2]; [by apply H1 in E|done].
  - intros Hn [HP|Hs]; [by apply I3, HP; apply HN|]. destruct (HS Hs) as [_ HS2]. by apply HS2, HN.
  - intros b Hb.
    assert (Σ (e_fl r b) (log (api o s)) = Σ (e_fl r b) (log s)) as EL.
    { destruct (api_evs o s) as [-> |(e & -> & He)]; [done|]. cbn. by destruct e. }
    rewrite EL in Hb. destruct (flow_api r b o s) as [Hle|[(q & a & k & w & -> & Hh & Hs & ->)|(v & q & a & k & w & -> & Hh & ->)]].
    + destruct (I4 b ltac:(lia)) as (H1 & h & H2 & H3).
      assert (¬ stop_now o s r) as Hns by (intros [(_ & ? & ? & E1 & E2)|(_ & ? & ? & E1 & E2 & _)]; rewrite H2 in E1; simplify_eq; by rewrite H3 in E2).
      split; [tauto|]. destruct (hols (api o s) !! r) as [h'|] eqn:Hh; [|by rewrite (HN eq_refl) in H2]. exists h'. split; [done|].
      destruct (HH _ eq_refl) as [H|[[_ [(h0 & E1 & E2)|H]]|[(h0 & a0 & E1 & E2 & _)|[(E1 & _)|H]]]]; try done; try congruence.
      * rewrite H2 in E1. injection E1 as <-. by destruct E2.
      * rewrite H2 in E1. injection E1 as <-. by destruct E2.
    + split; [split; [|done]; intros _; right; right; by eauto 10|]. cbn [api]. rewrite Hh.
      destruct Hs as [->|[i ->]]; prj; rewrite list_lookup_insert by (by eapply lookup_lt_Some); by eexists.
    + assert (¬ stop_now (AFinish r v) s r) as Hns by (by intros [[? _]|[? _]]).
      specialize (I1 _ a Hh eq_refl). cbn in I1. split; [destruct k; cbn; intuition congruence|]. cbn [api]. rewrite Hh.
      destruct a; prj; rewrite list_lookup_insert by (by eapply lookup_lt_Some); by eexists.
Qed.
Lemma fl_ext P Q s : (∀ r, P r ↔ Q r) → InvFl P s → InvFl Q s.
Proof. intros H I r. destruct (I r) as (I1 & I2 & I3 & I4). specialize (H r). split_and!; intros; rewrite <-H; eauto. Qed.
Definition stops (s : state) (ops : list op) (r : nat) : Prop := stopped_self s ops r ∨ stop_dispatched s ops r.
Lemma snoc_split {A} (l l1 l2 : list A) x y : l ++ [x] = l1 ++ y :: l2 → (∃ l2', l = l1 ++ y :: l2' ∧ l2 = l2' ++ [x]) ∨ (l = l1 ∧ x = y ∧ l2 = []).
Proof.
  destruct l2 as [|z l2' _] using rev_ind; intros H.
  - right. apply app_inj_tail in H as [-> ->]. done.
  - left. rewrite app_comm_cons, app_assoc in H. apply app_inj_tail in H as [-> ->]. by exists l2'.
Qed.
Lemma stops_snoc s ops o r : stops s (ops ++ [o]) r ↔ stops s ops r ∨ stop_now o (run s ops) r.
Proof.
  unfold stops, stopped_self, stop_dispatched, stop_now, is_stop. split.
  - intros [(l1 & l2 & h & a & E & H1 & H2)|(l1 & l2 & h & a & E & H1 & H2 & H3)]; apply snoc_split in E as [(l2' & -> & ->)|(-> & -> & ->)]; eauto 20.
  - intros [[(l1 & l2 & h & a & -> & H1 & H2)|(l1 & l2 & h & a & -> & H1 & H2 & H3)]|[(-> & h & a & H1 & H2)|(-> & h & a & H1 & H2 & H3)]].
    + left. exists l1, (l2 ++ [o]), h, a. split; [by rewrite <-app_assoc|done].
    + right. exists l1, (l2 ++ [o]), h, a. split; [by rewrite <-app_assoc|done].
    + left. by exists ops, [], h, a.
    + right. by exists ops, [], h, a.
Qed.
Lemma flow_run c ops : InvFl (stops (init c) ops) (run (init c) ops).
Proof.
  induction ops as [|o ops IH] using rev_ind.
  - intros r. assert (¬ stops (init c) [] r) as Hn by (intros [(l1 & l2 & h & a & E & _)|(l1 & l2 & h & a & E & _)]; by destruct l1).
    split_and!; try done.
    + intros h a. cbn. destruct r as [|[]]; cbn; try done. intros [= <-]. done.
    + intros b. cbn. lia.
  - rewrite run_app. set (s := run (init c) ops) in *. change (run s [o]) with (step s o).
    assert (reach s) as Hr by (apply reach_run, reach_init).
    eapply fl_ext; [intros r; symmetry; apply stops_snoc|]. fold s.
    assert (InvFl (λ r, stops (init c) ops r ∨ stop_now o s r) (match o with Step t => do_step t s | _ => api o s end)) as H.
    { destruct o; try (by apply fl_api). eapply fl_ext.
      { intros r. split; [intros H; left; exact H|]. intros [H|[[? _]|[? _]]]; [exact H|done..]. }
      unfold do_step. destruct (thr s !! t) as [[|u rest]|] eqn:Ht; try done. destruct (exec u s) as [s1 new] eqn:E.
      eapply fl_exec; try done. pose proof (exec_thr u s) as H. by rewrite E in H. }
    unfold step, collect. destruct (chan_owned _); [exact H|by apply fl_free].
Qed.
Lemma flow_iff c ops r b : happened (EvFlow r b) (run (init c) ops) →
  (b = true ↔ stopped_self (init c) ops r ∨ stop_dispatched (init c) ops r).
Proof.
  intros H. destruct (flow_run c ops r) as (_ & _ & _ & I). apply (I b).
  apply elem_of_list_lookup in H as [i Hi]. pose proof (sum_lookup (e_fl r b) _ _ _ Hi) as H. cbn in H. unfold isn in H. rewrite Bool.eqb_reflx, Nat.eqb_refl in H. lia.
Qed.
Lemma stop_self_frame s r h a : hols s !! r = Some h → h_st h = HRun a →
  same_but_hol r s (step s (AStopSelf r)) ∧ hols (step s (AStopSelf r)) !! r = Some (HO (h_bq h) (HRun a) false (h_wk h)).
Proof.
  intros Hh Ha. destruct h as [b st k w]. cbn in Ha. subst st. unfold step. cbn [api]. rewrite Hh.
  match goal with |- context [collect ?y] => set (z := y) end.
  assert (hols z !! r = Some (HO b (HRun a) false w)) as Hz by (unfold z; prj; apply list_lookup_insert; by eapply lookup_lt_Some).
  rewrite owned_collect by (by eapply owned_hol). split; [|done]. unfold same_but_hol, z. prj. split_and!; try done. intros q Hq. by rewrite list_lookup_insert_ne.
Qed.

(** ** C45 *)
Definition InvNW (s : state) : Prop := ∀ m rx w, reps s !! m = Some (RP rx (REmpty (Some w))) → 0 < Σ (e_acc m) (log s).
Lemma reach_NW s : reach s → InvNW s.
Proof.
  revert s. apply reach_inv; unfold InvNW.
  - intros c m rx w. cbn. by destruct m.
  - intros s o Hr I m rx w H. eapply Nat.lt_le_trans; [|apply (logx_sum (e_acc m) _ _ (api_logx o s))].
    destruct (api_reps m o s) as [E|(_ & _ & E & _)]; rewrite E in H; [by eapply I|done].
  - intros s t u rest s1 new Hr I Ht E _ m rx w H. prj. eapply Nat.lt_le_trans; [|apply (logx_sum (e_acc m) _ _ (exec_logx _ _ _ _ E))].
    destruct (reach_ok s Hr) as [O1 O2]. prjin H.
    destruct (exec_reps m u s s1 new E) as [HC|[(v & w0 & _ & _ & H1 & _)|[(rx0 & x & _ & H1 & H2 & _)|[(rx0 & w0 & w' & e & H1 & H2 & _ & [(f & sf & -> & _ & Hf & _)|(x & rc & -> & _ & Hx & <- & _)])|(rx0 & v & e & _ & H2 & _)]]]].
    + destruct HC as (_ & k & _ & [[HC _]|(? & ? & ? & _ & HC & _)]); rewrite HC in H; [by eapply I|done].
    + by rewrite H1 in H.
    + rewrite H2 in H. simplify_eq. by eapply I.
    + eapply (O1 f); [|rewrite (at_some _ _ _ _ Hf); unfold fm; by erewrite mode1].
      pose proof (msum_head (g_ok f) s t _ rest Ht) as HG. cbn in HG. unfold isn in HG. rewrite Nat.eqb_refl in HG. lia.
    + by eapply O2.
    + by rewrite H2 in H.
  - intros s Hr I _ m rx w H. eapply Nat.lt_le_trans; [|apply (logx_sum (e_acc m) _ _ (free_logx s))].
    destruct (free_closes m s) as (_ & k & _ & [[HC _]|(? & ? & ? & _ & HC & _)]); rewrite HC in H; [by eapply I|done].
Qed.
Lemma wait_active s f x m c l w k : reach s → sfs s !! f = Some x → message_of x = Some m → sf_st x = SWait c →
  cells1 s !! c = Some (WC l (WActive w k)) → l = true ∧ um_id k = m ∧ 0 < blocked m s.
Proof.
  intros Hr Hf Hmo Hs Hc. pose proof (message_of_is m x Hmo) as [_ Hm].
  assert (f_c1 c x = 1) as Hc1. { unfold f_c1. rewrite Hs. unfold message_of in Hmo. destruct (sf_mode x); try done; unfold isn; by rewrite Nat.eqb_refl. }
  destruct (reach_cell s Hr c) as [C _]. pose proof (sum_lookup (f_c1 c) _ _ _ Hf) as H1.
  rewrite (at_some _ _ _ _ Hc) in C. destruct l; cbn in C; [|lia].
  destruct (reach_FC s Hr f c) as [_ HFC]; [rewrite (at_some _ _ _ _ Hf); lia|]. rewrite (at_some _ _ _ _ Hf), Hm in HFC. injection HFC as HFC.
  destruct (reach_blk s Hr) as [_ HB]. destruct (HB c) as (B1 & _ & _). rewrite !(at_some _ _ _ _ Hc) in B1. cbn in B1. rewrite <-HFC in B1.
  specialize (B1 ltac:(lia)). injection B1 as B1. split; [done|]. split; [done|].
  unfold blocked. eapply cnt_pos; [by eapply elem_of_list_lookup_2|]. cbn. by rewrite B1, Nat.eqb_refl.
Qed.
Lemma blocked_owned s m : reachable s → 0 < blocked m s → chan_owned s = true.
Proof.
  intros Hr Hb. destruct (chan_owned s) eqn:Ho; [done|exfalso]. destruct (unowned_empty s Hr Ho) as (_ & Hw & _).
  apply reachable_reach in Hr. rewrite empty_blocked in Hb by done. lia.
Qed.
Lemma step_call s o p u s1 : api o s = call (u :: p) s1 → (∀ t, o ≠ Step t) → step s o = call (u :: p) s1.
Proof.
  intros Ho Hs. unfold step. assert (collect (call (u :: p) s1) = call (u :: p) s1) as <-.
  { eapply (owned_busy _ (length (thr s1))). cbn. by rewrite lookup_app_r, Nat.sub_diag. }
  destruct o; try (by exfalso; eapply Hs); by rewrite Ho.
Qed.
Lemma step_busy s t u rest s1 new v p : thr s !! t = Some (u :: rest) → exec u s = (s1, new) → new ++ rest = v :: p →
  step s (Step t) = set_thr (<[t := v :: p]> (thr s)) s1.
Proof.
  intros Ht E Hn. unfold step, do_step. rewrite Ht, E, Hn. pose proof (exec_thr u s) as H. rewrite E in H. cbn in H. rewrite H.
  eapply (owned_busy _ t). prj. apply list_lookup_insert. by eapply lookup_lt_Some.
Qed.
Lemma blocked_not_accepted s m : reach s → 0 < blocked m s → Σ (e_acc m) (log s) = 0.
Proof.
  intros Hr Hb. destruct (decide (0 < times (accepted m) s)) as [Ha|Ha]; [|rewrite accepted_sum in Ha; lia].
  destruct (somewhere s m Hr (accepted_lt s m Hr Ha)) as [S1 S2]. lia.
Qed.
Lemma cancel_blocked s f x c m l w k : reachable s → sfs s !! f = Some x → sf_live x = true → message_of x = Some m → sf_st x = SWait c →
  cells1 s !! c = Some (WC l (WActive w k)) →
  let t := length (thr s) in let s' := run s [ADropSend f; Step t; Step t; Step t] in
  only_cancelled f c m s s' ∧ between s s' [EvDrop m DSendDropped] ∧ blocked m s' = 0 ∧ thr s' = thr s ++ [[]].
Proof.
  intros Hr0 Hf Hl Hm Hs Hc t s'. pose proof (reachable_reach _ Hr0) as Hr.
  destruct (wait_active s f x m c l w k Hr Hf Hm Hs Hc) as (-> & Hk & Hb).
  assert (reach s') as Hr' by (by apply reach_run).
  pose proof (blocked_owned s m Hr0 Hb) as Ho.
  destruct x as [st md lv wk]. cbn in Hl, Hs. subst lv st.
  assert (api (ADropSend f) s = call [UCellDrop1 c; URepDrop m] (put_sf f (SF SFin md false wk) s)) as E0.
  { cbn [api]. rewrite Hf. unfold sf_drop. cbn. unfold message_of in Hm. cbn in Hm. destruct md as [m0|[m0|]|]; by simplify_eq. }
  set (x0 := SF SFin md false wk) in *.
  assert (∃ rx rs, reps s !! m = Some (RP rx rs)) as (rx & rs & Hrp).
  { assert (m < length (reps s)) as [[rx rs] ?]%lookup_lt_is_Some_2 by (by eapply (owner_exists s f)). eauto. }
  set (s1 := call [UCellDrop1 c; URepDrop m] (put_sf f x0 s)) in *.
  assert (step s (ADropSend f) = s1) as E1 by (by apply step_call).
  assert (thr s1 !! t = Some [UCellDrop1 c; URepDrop m]) as T1 by (unfold s1, t; cbn; by rewrite lookup_app_r, Nat.sub_diag).
  set (s2 := set_thr (<[t := [UDropMsg k DSendDropped; URepDrop m]]> (thr s1)) (set_cells1 (<[c := WC false WClosed]> (cells1 s1)) s1)).
  assert (step s1 (Step t) = s2) as E2.
  { eapply (step_busy s1 t _ _ _ [UDropMsg k DSendDropped]); [exact T1| |done]. cbn [exec]. change (cells1 s1) with (cells1 s). by rewrite Hc. }
  assert (thr s2 !! t = Some [UDropMsg k DSendDropped; URepDrop m]) as T2 by (unfold s2; cbn; apply list_lookup_insert; by eapply lookup_lt_Some).
  set (r1 := match rs with REmpty _ => RClosed | _ => rs end).
  set (s3 := set_thr (<[t := [URepDrop m]]> (thr s2)) (emit (EvDrop m DSendDropped) (set_reps (<[m := RP rx r1]> (reps s2)) s2))).
  assert (step s2 (Step t) = s3) as E3.
  { eapply (step_busy s2 t _ _ _ []); [exact T2| |done]. cbn [exec]. unfold drop_umsg, close_reply. rewrite Hk. change (reps s2) with (reps s). rewrite Hrp.
    assert (r1 = rs → set_reps (<[m := RP rx r1]> (reps s)) s2 = s2) as Eid.
    { intros ->. rewrite list_insert_id by done. change (reps s) with (reps s2). by destruct s2. }
    destruct rs as [[n|]|v| |]; cbn in r1; try (by rewrite Eid); [|done].
    pose proof (reach_NW s Hr _ _ _ Hrp). rewrite (blocked_not_accepted s m Hr Hb) in *. lia. }
  assert (thr s3 !! t = Some [URepDrop m]) as T3 by (unfold s3; cbn; apply list_lookup_insert; by eapply lookup_lt_Some).
  set (s4 := set_thr (<[t := []]> (thr s3)) (set_reps (<[m := RP false r1]> (reps s3)) s3)).
  assert (thr s4 = thr s ++ [[]]) as T4.
  { unfold s4, s3, s2, s1. cbn. rewrite !list_insert_insert. unfold t. rewrite insert_app_r_alt, Nat.sub_diag by lia. done. }
  assert (step s3 (Step t) = s4) as E4.
  { unfold step, do_step. rewrite T3. cbn [exec]. assert (reps s3 !! m = Some (RP rx r1)) as -> by (unfold s3; cbn; apply list_lookup_insert; by eapply lookup_lt_Some).
    apply owned_collect. change (chan_owned s4 = true). unfold chan_owned in *. rewrite T4, existsb_app. change (addrs s4) with (addrs s). change (hols s4) with (hols s).
    change (sfs s4) with (<[f := x0]> (sfs s)). rewrite !orb_true_iff in *. destruct Ho as [[[Ho|Ho]|Ho]|Ho]; [tauto|tauto| |tauto].
    left; right. apply existsb_exists in Ho as (y & [g Hg]%elem_of_list_In%elem_of_list_lookup & Hy). apply existsb_exists. exists y. split; [|done].
    apply elem_of_list_In. apply (elem_of_list_lookup_2 _ g). rewrite list_lookup_insert_ne; [done|]. intros ->. rewrite Hf in Hg. by simplify_eq. }
  assert (s' = s4) as Es by (unfold s', run; cbn [fold_left]; by rewrite E1, E2, E3, E4).
  split_and!.
  - rewrite Es. unfold only_cancelled, channel_same. split_and!; try done.
    + intros d Hd. unfold s4, s3, s2. cbn. by rewrite list_lookup_insert_ne.
    + intros g Hg. unfold s4, s3, s2. cbn. by rewrite list_lookup_insert_ne.
    + intros i Hi. unfold s4, s3, s2. cbn. by rewrite !list_lookup_insert_ne.
  - by rewrite Es.
  - assert (m < length (reps s')) as Hm' by (rewrite Es; unfold s4, s3; cbn; rewrite !insert_length; by eapply lookup_lt_Some).
    destruct (somewhere s' m Hr' Hm') as [S1 _]. assert (0 < times (dropped before_accept m) s'); [|lia].
    eapply cnt_pos; [rewrite Es; by left|]. cbn. by rewrite Nat.eqb_refl.
  - by rewrite Es.
Qed.
Lemma cancel_step s t c l w k : reachable s → next_action s t (UCellDrop1 c) → cells1 s !! c = Some (WC l (WActive w k)) →
  channel_same s (step s (Step t)) ∧ bqs (step s (Step t)) = bqs s ∧ cellsA (step s (Step t)) = cellsA s ∧
  (∀ d, d ≠ c → cells1 (step s (Step t)) !! d = cells1 s !! d) ∧ ¬ blocked_msg (step s (Step t)) k ∧
  sfs (step s (Step t)) = sfs s ∧ reps (step s (Step t)) = reps s ∧ log (step s (Step t)) = log s ∧
  ∀ q, q ≠ t → thr (step s (Step t)) !! q = thr s !! q.
Proof.
  intros Hr0 [rest Ht] Hc. pose proof (reachable_reach _ Hr0) as Hr.
  assert (l = true) as ->.
  { destruct (reach_cell s Hr c) as [C _]. pose proof (msum_head (g_c1 c) s t _ rest Ht) as HG. cbn in HG. unfold isn in HG. rewrite Nat.eqb_refl in HG.
    rewrite (at_some _ _ _ _ Hc) in C. destruct l; cbn in C; [done|lia]. }
  set (s' := step s (Step t)). set (s1 := set_cells1 (<[c := WC false WClosed]> (cells1 s)) s).
  assert (s' = set_thr (<[t := UDropMsg k DSendDropped :: rest]> (thr s)) s1) as E.
  { apply (step_busy s t _ _ _ [UDropMsg k DSendDropped]) with (1 := Ht); [|done]. cbn [exec]. by rewrite Hc. }
  assert (reach s') as Hr' by (by apply reach_one).
  split; [by rewrite E|]. split; [by rewrite E|]. split; [by rewrite E|]. split; [|split].
  - intros d Hd. rewrite E. cbn. by rewrite list_lookup_insert_ne.
  - intros (d & w' & Hd).
    assert (um_id k < length (reps s')) as Hi.
    { apply (V_known _ _ Hr'). pose proof (exists_V (is (um_id k)) s' k) as H. assert (is (um_id k) k = 1) as E1 by (unfold is, isn; by rewrite Nat.eqb_refl).
      rewrite E1 in H. apply H. right; left. by exists d, w'. }
    destruct (somewhere s' _ Hr' Hi) as [S1 _].
    assert (0 < blocked (um_id k) s'). { unfold blocked. eapply cnt_pos; [by eapply elem_of_list_lookup_2|]. cbn. by rewrite Nat.eqb_refl. }
    assert (0 < in_drop before_accept (um_id k) s'); [|lia]. unfold in_drop, todo. apply (cnt_pos _ _ (UDropMsg k DSendDropped)); [|cbn; by rewrite Nat.eqb_refl].
    apply elem_of_list_In, in_concat. exists (UDropMsg k DSendDropped :: rest). rewrite <-!elem_of_list_In. split; [|by left].
    apply (elem_of_list_lookup_2 _ t). rewrite E. cbn. apply list_lookup_insert. by eapply lookup_lt_Some.
  - split_and!; try (by rewrite E). intros q Hq. rewrite E. cbn. by rewrite list_lookup_insert_ne.
Qed.
Lemma cancel_bcast s f x c l w b : reachable s → sfs s !! f = Some x → sf_live x = true → sf_mode x = MBroadcast → sf_st x = SWait c →
  cellsA s !! c = Some (WC l (WActive w b)) → chan_owned s = true →
  let t := length (thr s) in let s' := run s [ADropSend f; Step t] in
  only_cancelled_bcast f c s s' ∧ log s' = log s ∧ ¬ (∃ w', cellsA s' !! c = Some (WC true (WActive w' b))) ∧ thr s' = thr s ++ [[]].
Proof.
  intros Hr0 Hf Hl Hm Hs Hc Ho t s'. pose proof (reachable_reach _ Hr0) as Hr.
  destruct x as [st md lv wk]. cbn in Hl, Hs, Hm. subst lv st md. set (x0 := SF SFin MBroadcast false wk).
  assert (l = true) as ->.
  { destruct (reach_cell s Hr c) as [_ C]. pose proof (sum_lookup (f_cA c) _ _ _ Hf) as H1. cbn in H1. unfold isn in H1. rewrite Nat.eqb_refl in H1.
    rewrite (at_some _ _ _ _ Hc) in C. destruct l; cbn in C; [done|lia]. }
  set (s1 := call [UCellDropA c] (put_sf f x0 s)).
  assert (step s (ADropSend f) = s1) as E1 by (apply step_call; [|done]; cbn [api]; by rewrite Hf).
  assert (thr s1 !! t = Some [UCellDropA c]) as T1 by (unfold s1, t; cbn; by rewrite lookup_app_r, Nat.sub_diag).
  set (s2 := set_thr (<[t := []]> (thr s1)) (set_cellsA (<[c := WC false WClosed]> (cellsA s1)) s1)).
  assert (thr s2 = thr s ++ [[]]) as T2.
  { unfold s2, s1. cbn. unfold t. rewrite insert_app_r_alt, Nat.sub_diag by lia. done. }
  assert (step s1 (Step t) = s2) as E2.
  { unfold step, do_step. rewrite T1. cbn [exec]. change (cellsA s1) with (cellsA s). rewrite Hc.
    apply owned_collect. change (chan_owned s2 = true). unfold chan_owned in *. rewrite T2, existsb_app. change (addrs s2) with (addrs s). change (hols s2) with (hols s).
    change (sfs s2) with (<[f := x0]> (sfs s)). rewrite !orb_true_iff in *. destruct Ho as [[[Ho|Ho]|Ho]|Ho]; [tauto|tauto| |tauto].
    left; right. apply existsb_exists in Ho as (y & [g Hg]%elem_of_list_In%elem_of_list_lookup & Hy). apply existsb_exists. exists y. split; [|done].
    apply elem_of_list_In. apply (elem_of_list_lookup_2 _ g). rewrite list_lookup_insert_ne; [done|]. intros ->. rewrite Hf in Hg. by simplify_eq. }
  assert (s' = s2) as Es by (unfold s', run; cbn [fold_left]; by rewrite E1, E2).
  rewrite Es. split; [|split; [done|split; [|done]]].
  - unfold only_cancelled_bcast, channel_same. split_and!; try done.
    + intros d Hd. unfold s2. cbn. by rewrite list_lookup_insert_ne.
    + intros g Hg. unfold s2. cbn. by rewrite list_lookup_insert_ne.
  - intros [w' H]. revert H. unfold s2. cbn. by rewrite list_lookup_insert by (by eapply lookup_lt_Some).
Qed.
(** A receive from a full mailbox makes room for a blocked send. *)
Lemma slot_taken s t r n k y : reachable s → cap s = Some n → length (uq s) = n → blocked_msg s k → next_action s t (UTryRecv r) →
  newly s (step s (Step t)) (EvRecv r (ToOne y)) → ∃ m, 0 < blocked m s ∧ newly s (step s (Step t)) (EvAccept m) ∧ blocked m (step s (Step t)) = 0.
Proof.
  intros Hr0 Hcap Hlen (c & w & Hc) [rest Ht] Hnew. pose proof (reachable_reach _ Hr0) as Hr.
  destruct (busyR_at s t _ rest r Hr Ht) as (h & Hh & _); [cbn; by rewrite Nat.eqb_refl|].
  assert (reach (step s (Step t))) as Hr' by (by apply reach_one).
  destruct (try_recv_step s t r h Hr (ex_intro _ rest Ht) Hh) as (rest' & s1 & new & E & Es).
  set (s' := step s (Step t)) in *. destruct Hnew as (kk & Hk & Hin). unfold between in Hk.
  assert (log s' = log s1) as Hlog' by (by rewrite Es). rewrite Hlog' in Hk.
  destruct (try_recv_cases s s1 new r h Hr Hh E) as [(m & hp & l & _ & _ & _ & _ & _ & _ & _ & _ & _ & s2 & Hp & ->)|
    [(m & hp & l & _ & _ & _ & Hlog & Hl & _)|[(_ & _ & _ & _ & _ & Hlog & _)|(_ & _ & _ & _ & _ & Hlog & _)]]].
  2: { exfalso. rewrite Hlog, app_comm_cons in Hk. apply app_inv_tail in Hk as <-. apply elem_of_cons in Hin as [?|Hin]; [done|].
       rewrite Forall_forall in Hl. by apply Hl in Hin as (? & ? & ?). }
  2: { exfalso. rewrite Hlog in Hk. apply (app_inv_tail (log s) [_] kk) in Hk as <-. by apply elem_of_list_singleton in Hin. }
  2: { exfalso. rewrite Hlog in Hk. symmetry in Hk. apply app_cons_inj in Hk as ->. by apply elem_of_nil in Hin. }
  destruct (pop_unicast_spec s) as (x & P1 & P2 & P3). rewrite Hp in P1, P2, P3. cbn [fst snd] in P1, P2, P3.
  assert (cells1 s' = cells1 s2) as Ec by (rewrite Es; prj; by autorewrite with fr_cells1).
  assert (uq s' = uq s2) as Eu by (rewrite Es; prj; by autorewrite with fr_uq).
  assert (log s' = EvRecv r (ToOne m) :: log s2) as El by (rewrite Es; prj; by autorewrite with fr_log).
  assert (∀ i z, blocked i z = Σ (ccell (is i)) (cells1 z)) as Hbl by (intros; apply cnt_sum; b2n).
  destruct x as [m0|].
  - exists (um_id m0). assert (is (um_id m0) m0 = 1) as E1 by (unfold is, isn; by rewrite Nat.eqb_refl).
    specialize (P1 (is (um_id m0))). cbn in P1. rewrite E1 in P1.
    assert (0 < blocked (um_id m0) s) as Hb by (rewrite Hbl; lia). split; [done|]. split.
    + exists [EvRecv r (ToOne m); EvAccept (um_id m0)]. split; [unfold between; rewrite El, P3; done|]. right; by left.
    + rewrite Hbl, Ec. assert (blocked (um_id m0) s ≤ 1); [|rewrite Hbl in *; lia].
      assert (um_id m0 < length (reps s)) as Hi.
      { apply (V_known _ _ Hr). unfold V. rewrite Hbl in Hb. lia. }
      destruct (somewhere s _ Hr Hi) as [S1 _]. lia.
  - exfalso. cbn in P1, P2. specialize (P2 (λ _, 1)). specialize (P1 (is (um_id k))).
    assert (∀ l' : list umsg, Σ (λ _, 1) l' = length l') as HL by (intros l'; induction l'; cbn; [done|by f_equal]). rewrite !HL in P2.
    assert (0 < blocked (um_id k) s') as Hb.
    { rewrite Hbl, Ec. pose proof (sum_lookup (ccell (is (um_id k))) _ _ _ Hc) as H. cbn in H. assert (is (um_id k) k = 1) as E1 by (unfold is, isn; by rewrite Nat.eqb_refl). lia. }
    destruct (blocked_full _ _ Hr' Hb) as (n' & Hn' & Hl). unfold s' in Hn'. rewrite step_cap, Hcap in Hn'. injection Hn' as <-. rewrite Eu in Hl. lia.
Qed.
