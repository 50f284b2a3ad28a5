(** Actors on executors: broadcasts are handled. *)
From stdpp Require Import base numbers list list_numbers.
From Coq Require Import Lia.
From Verif Require Import Prio Heap State Model HeapProofs Frame Lib InvBusy InvCount Effects InvMsg InvMsg2 InvHeap InvOne InvOne2 InvBc Mono Events InvErr Spec Bridge FinishSpec FinishProofs
  FinalC FinalD FinalG FinalI ClaimsA ClaimsB ClaimsE ClaimsN FinalE System SystemSpec SystemProofs SystemInv SystemEnd SystemLost
  InvBprio StopSpec SystemStop ClaimsC BcastSpec.

(** ** Broadcasts that were received and broadcasts that were handled *)
Definition e_hr (r : nat) (c : bmsg → nat) (e : ev) : nat := match e with EvHandle q (ToAll x) => if q =? r then c x else 0 | _ => 0 end.
Definition e_rr (r : nat) (c : bmsg → nat) (e : ev) : nat := match e with EvRecv q (ToAll x) => if q =? r then c x else 0 | _ => 0 end.
Definition h_pd (c : bmsg → nat) (h : holder) : nat := match h_st h with HMsg (ToAll x) | HDispNew (ToAll x) => c x | _ => 0 end.
Definition RH (r : nat) (c : bmsg → nat) (s : state) : nat := Σ (e_hr r c) (log s) + at_ (h_pd c) (hols s) r.
Lemma at_alter_ne {A} (g : A → nat) f l i j : i ≠ j → at_ g (alter f i l) j = at_ g l j.
Proof. intros H. unfold at_. by rewrite list_lookup_alter_ne. Qed.
Lemma pop_sum (g : ev → nat) b s : (∀ m l, g (EvBcast m l) = 0) → Σ g (log (fst (pop_broadcast b s))) = Σ g (log s).
Proof. intros Hg. destruct (pop_broadcast_log b s) as ([[m' l']|] & Hx); cbn [bq_evs app] in Hx; rewrite Hx; [cbn; by rewrite Hg|done]. Qed.
Lemma popu_sum (g : ev → nat) s : (∀ m, g (EvAccept m) = 0) → Σ g (log (fst (pop_unicast s))) = Σ g (log s).
Proof. intros Hg. destruct (pop_unicast_spec s) as (x & _ & _ & Hx). destruct x; cbn [acc_ev app] in Hx; rewrite Hx; [cbn; by rewrite Hg|done]. Qed.
Lemma rxs_sum (g : ev → nat) s : (∀ m y, g (EvDrop m y) = 0) → Σ g (log (exec_rx_shutdown s)) = Σ g (log s).
Proof. intros Hg. destruct (rx_shutdown_evs s) as (k & -> & He). rewrite sum_list_with_app, (sum_zero _ k); [done|]. intros e Hk. destruct (He e Hk) as (m & y & -> & _). apply Hg. Qed.
Lemma exec_RH z c s t u rest s1 new : reach s → thr s !! t = Some (u :: rest) → exec u s = (s1, new) → EvPanic ∉ log s1 →
  RH z c s1 + Σ (e_rr z c) (log s) = RH z c s + Σ (e_rr z c) (log s1).
Proof.
  intros Hr Ht E Hp. pose proof (λ q, busyR_at s t u rest q Hr Ht) as HB. unfold RH.
  exec_cases u E; unfold panic_recv in Hp; unfold deliver, emit; repeat (progress (prj; autorewrite with fr_hols fr_log)); cbn [sum_list_with e_hr e_rr]; try lia.
  all: rewrite ?rxs_sum, ?pop_sum, ?popu_sum by done; try lia.
  all: try (exfalso; apply Hp; by left).
  (*1*)
  all: try match goal with |- context [at_ _ (alter _ ?q _) ?zz] => destruct (decide (q = zz)) as [->|Hq]; [|rewrite at_alter_ne by done; rewrite ?(proj2 (Nat.eqb_neq _ _) Hq); lia] end.
  all: try (match goal with |- context [at_ _ (alter _ ?q _) _] => destruct (HB q) as (hh & Hhh & Hbb) end; [cbn; by rewrite Nat.eqb_refl|]; unfold at_; rewrite list_lookup_alter, Hhh; cbn; rewrite ?Nat.eqb_refl; unfold h_pd; rewrite Hbb; cbn; lia).
  rewrite at_snoc. destruct (Nat.eqb_spec (length (hols s)) z) as [<-|]; [|lia]. unfold at_ at 1. rewrite lookup_ge_None_2 by done. cbn. lia.
Qed.
Lemma api_rr z c s o : Σ (e_rr z c) (log (api o s)) = Σ (e_rr z c) (log s).
Proof. destruct (api_evs o s) as [-> |(e & -> & He)]; [done|]. cbn [sum_list_with]. by destruct e. Qed.
Lemma api_RH z c s o : RH z c (api o s) ≤ RH z c s ∧ ((∀ j, c (BStop j) = 0) → unheld o s → RH z c (api o s) = RH z c s).
Proof.
  unfold RH, unheld.
  destruct o; cbn [api]; repeat (dgoal; try (split; [done|]; intros _ _; done)); cbv zeta; unfold add_addr, call, emit; repeat dgoal;
    repeat (progress (prj; autorewrite with fr_hols fr_log)); cbn [sum_list_with e_hr]; try (split; [lia|]; intros _ _; lia).
  { rewrite at_snoc. destruct (Nat.eqb_spec (length (hols s)) z) as [<-|]; [|split; [lia|]; intros _ _; lia]. unfold at_. rewrite lookup_ge_None_2 by done. cbn. split; [lia|]; intros _ _; lia. }
  all: match goal with H : hols ?s0 !! ?q = Some ?x |- _ => rewrite (at_insert _ _ _ _ _ _ H); match goal with |- context [q =? ?zz] => destruct (Nat.eqb_spec q zz) as [<-|Hn]; [rewrite (at_some _ _ _ _ H)|split; [lia|]; intros _ _; lia] end end.
  all: unfold h_pd; cbn.
  all: repeat match goal with |- context [match ?a with ToOne _ => _ | _ => _ end] => is_var a; destruct a end.
  all: try (split; [lia|]; intros Hc Ho; rewrite ?Hc; cbn; lia).
  split; [lia|]. intros _ Ho. destruct (h_st h) eqn:Eh; try done; by destruct (Ho r h a eq_refl Em).
Qed.
Lemma collect_RH z c s : RH z c (collect s) = RH z c s ∧ Σ (e_rr z c) (log (collect s)) = Σ (e_rr z c) (log s).
Proof.
  unfold RH. rewrite collect_hols. unfold collect. destruct (chan_owned s); [done|]. destruct (free_evs s) as (k & -> & Hk). rewrite !sum_list_with_app.
  rewrite (sum_zero (e_hr z c) k), (sum_zero (e_rr z c) k); [done|..]; intros e He; by destruct (Hk _ He) as (? & ? & -> & _).
Qed.
Lemma step_RH z c s o : reach s → RH z c (step s o) + Σ (e_rr z c) (log s) ≤ RH z c s + Σ (e_rr z c) (log (step s o)) ∧
  ((∀ j, c (BStop j) = 0) → unheld o s → RH z c (step s o) + Σ (e_rr z c) (log s) = RH z c s + Σ (e_rr z c) (log (step s o))).
Proof.
  intros Hr. unfold step. destruct o as [t| | | | | | | | | | | | | | | | | | | | | | | | | | |].
  2-28: match goal with |- context [RH ?z0 ?c0 (collect (api ?o ?s0))] => destruct (collect_RH z0 c0 (api o s0)) as [-> ->]; rewrite (api_rr z0 c0 s0 o); destruct (api_RH z0 c0 s0 o) as [H1 H2]; split; [lia|]; intros Hc Ho; rewrite (H2 Hc Ho); lia end.
  destruct (collect_RH z c (do_step t s)) as [-> ->]. enough (RH z c (do_step t s) + Σ (e_rr z c) (log s) = RH z c s + Σ (e_rr z c) (log (do_step t s))) by (split; [lia|by intros _ _]).
  pose proof (no_panic_ev _ (reach_step s t Hr)) as [Hp _]. revert Hp. unfold do_step.
  destruct (thr s !! t) as [[|u rest]|] eqn:Ht; try done. destruct (exec u s) as [s1 new] eqn:E. unfold RH. prj. intros Hp. by apply (exec_RH z c s t u rest s1 new).
Qed.
Lemma run_RH z c s : reachable s → RH z c s ≤ Σ (e_rr z c) (log s).
Proof.
  intros (k & ops & ->). induction ops as [|o ops IH] using rev_ind; [by destruct z|]. rewrite run_app. cbn.
  destruct (step_RH z c (run (init k) ops) o) as [H _]; [apply reachable_reach; by exists k, ops|]. unfold run in *. lia.
Qed.

(** Nobody drops a broadcast that was received. *)
Definition hb (y : sys) : Prop := ∀ z c, (∀ j, c (BStop j) = 0) → RH z c (ch y) = Σ (e_rr z c) (log (ch y)).
Lemma hb_keep s o : reach s → unheld o s → (∀ z c, (∀ j, c (BStop j) = 0) → RH z c s = Σ (e_rr z c) (log s)) →
  ∀ z c, (∀ j, c (BStop j) = 0) → RH z c (step s o) = Σ (e_rr z c) (log (step s o)).
Proof. intros Hr Ho H z c Hc. destruct (step_RH z c s o Hr) as [_ H1]. specialize (H1 Hc Ho). specialize (H z c Hc). lia. Qed.
Lemma hb_step y l : reach (ch y) → SInv y → own y → hb y → hb (sys_step y l).
Proof.
  intros Hr I HO' HC. unfold hb. destruct l as [o|h|i v|i]; cbn [sys_step].
  - destruct (foreign y o) eqn:Hf; [|done]. cbn [ch]. apply hb_keep; [done| |done]. intros r x a -> Hx. destruct (foreign_dead y (ADropHol r) r x HO' Hf eq_refl Hx) as [-> | ->]; done.
  - by repeat case_match.
  - destruct (tk y !! i) as [t|] eqn:Ht; [|done]. destruct (task_step t v (ch y)) as [[s' st]|] eqn:E; [|done]. cbn [ch].
    destruct (task_op y i t v s' st I Ht E) as [(-> & _)|(o & -> & _ & Hdr & _)]; [done|]. apply hb_keep; [done| |done]. intros r x a Er Hx. destruct (Hdr r Er) as [-> Hd].
    destruct (tinv_mb _ _ (proj1 I _ _ Ht)) as (x2 & Hx2 & Hs); [by rewrite Hd|]. rewrite Hx in Hx2. injection Hx2 as <-. by rewrite Hs.
  - destruct (tk y !! i) as [t|] eqn:Ht; [|done]. destruct (task_cancel t (ch y)) as [[s' st]|] eqn:E; [|done]. cbn [ch].
    destruct (cancel_cases _ _ _ _ E) as (_ & -> & [[-> Es]|(q & h & Es & Hh & -> & Hst)]); [done|]. apply hb_keep; [done| |done]. intros r x a [= <-] Hx. simplify_eq.
    destruct Hst as [[? ->]|[? ->]]; done.
Qed.
Lemma hb_run c l : hands_off l → hb (sys_run (sys_init c) l).
Proof.
  intros Hl. induction l as [|x l IH] using rev_ind; [intros [|z] k _; done|].
  assert (hands_off l) as Hl' by (intros h Hh; apply (Hl h), elem_of_app; by left).
  rewrite sys_run_snoc. destruct (sys_reach (sys_run (sys_init c) l)) as [Hr I]; [by exists c, l|]. apply hb_step; [by apply reachable_reach|done|by apply own_run|auto].
Qed.

(** ** Sums by receive futures *)
Definition rkey (e : ev) : nat := match e with EvHandle q _ | EvRecv q _ => q | _ => 0 end.
Definition w_h (c : bmsg → nat) (e : ev) : nat := match e with EvHandle _ (ToAll x) => c x | _ => 0 end.
Definition w_r (c : bmsg → nat) (e : ev) : nat := match e with EvRecv _ (ToAll x) => c x | _ => 0 end.
Lemma sum_plus {A} (f g : A → nat) l : Σ (λ x, f x + g x) l = Σ f l + Σ g l.
Proof. induction l as [|x l IH]; cbn; [done|]. rewrite IH. lia. Qed.
Lemma sum_one (p : nat → bool) k n N : k < N → Σ (λ r, if p r then if k =? r then n else 0 else 0) (seq 0 N) = if p k then n else 0.
Proof.
  induction N as [|N IH]; [lia|]. intros H. rewrite seq_S, sum_list_with_app. cbn [sum_list_with plus]. destruct (decide (k = N)) as [->|Hn].
  - rewrite sum_zero; [rewrite Nat.eqb_refl; destruct (p N); lia|]. intros r [_ Hr]%elem_of_seq. destruct (Nat.eqb_spec N r); [lia|by destruct (p r)].
  - rewrite IH by lia. destruct (Nat.eqb_spec k N); [lia|]. destruct (p N), (p k); lia.
Qed.
Lemma split_sum (w : ev → nat) (p : nat → bool) N l : (∀ e, e ∈ l → rkey e < N) →
  Σ (λ e, if p (rkey e) then w e else 0) l = Σ (λ r, if p r then Σ (λ e, if rkey e =? r then w e else 0) l else 0) (seq 0 N).
Proof.
  induction l as [|e l IH]; intros H.
  - symmetry. apply sum_zero. intros r _. cbn. by destruct (p r).
  - cbn [sum_list_with]. rewrite IH by (intros; apply H; by right). rewrite <-(sum_one p (rkey e) (w e) N) by (apply H; by left). rewrite <-sum_plus.
    apply sum_same. intros j r _. by destruct (p r).
Qed.
Lemma key_bound (l : list ev) : ∃ N, ∀ e, e ∈ l → rkey e < N.
Proof.
  induction l as [|e l [N IH]]; [exists 0; by intros e ?%elem_of_nil|]. exists (S (rkey e) + N). intros x [->|H]%elem_of_cons; [lia|]. specialize (IH x H). lia.
Qed.
Lemma e_hr_key r c l : Σ (e_hr r c) l = Σ (λ e, if rkey e =? r then w_h c e else 0) l.
Proof. apply sum_same. intros j e _. unfold e_hr, e_rr, rkey, w_h, w_r. repeat case_match; done. Qed.
Lemma e_rr_key r c l : Σ (e_rr r c) l = Σ (λ e, if rkey e =? r then w_r c e else 0) l.
Proof. apply sum_same. intros j e _. unfold e_hr, e_rr, rkey, w_h, w_r. repeat case_match; done. Qed.
Lemma sums_le (p : nat → bool) c l : (∀ r, Σ (e_hr r c) l ≤ Σ (e_rr r c) l) → Σ (λ e, if p (rkey e) then w_h c e else 0) l ≤ Σ (λ e, if p (rkey e) then w_r c e else 0) l.
Proof.
  intros H. destruct (key_bound l) as [N HN]. rewrite !(split_sum _ p N) by done. apply sum_le. intros r. specialize (H r). rewrite e_hr_key, e_rr_key in H. by destruct (p r).
Qed.
Lemma sums_eq (p : nat → bool) c l : (∀ r, Σ (e_hr r c) l = Σ (e_rr r c) l) → Σ (λ e, if p (rkey e) then w_h c e else 0) l = Σ (λ e, if p (rkey e) then w_r c e else 0) l.
Proof.
  intros H. destruct (key_bound l) as [N HN]. rewrite !(split_sum _ p N) by done. apply sum_same. intros j r _. specialize (H r). rewrite e_hr_key, e_rr_key in H. by destruct (p r).
Qed.

(** ** How often a broadcast is handled *)
Definition pq (s : state) (b r : nat) : bool := match hols s !! r with Some h => h_bq h =? b | None => false end.
Definition wi (i : nat) (x : bmsg) : nat := if bm_id x =? i then 1 else 0.
Lemma ran_sum i b s : ran i b s = Σ (λ e, if pq s b (rkey e) then w_h (wi i) e else 0) (log s).
Proof.
  unfold ran, times. apply cnt_sum. intros e. destruct e; cbn; try by destruct (pq s b _). fold (pq s b r). destruct a; unfold wi; try by destruct (pq s b r).
  destruct (bm_id b0 =? i), (pq s b r); done.
Qed.
Lemma got_sum i b s : got i b s = Σ (λ e, if pq s b (rkey e) then w_r (wi i) e else 0) (log s).
Proof.
  unfold got, times. apply cnt_sum. intros e. destruct e; cbn; try by destruct (pq s b _). fold (pq s b r). destruct a; unfold wi; try by destruct (pq s b r).
  destruct (bm_id b0 =? i), (pq s b r); done.
Qed.
Lemma ran_got i b s : reachable s → ran i b s ≤ got i b s.
Proof. intros Hr. rewrite ran_sum, got_sum. apply sums_le. intros r. pose proof (run_RH r (wi i) s Hr) as H. unfold RH in H. lia. Qed.
Lemma ran_once s x qs b : reachable s → happened (EvBcast x qs) s → ran (bm_id x) b s ≤ 1 ∧ (b ∉ qs → ran (bm_id x) b s = 0).
Proof.
  intros Hr Hx. pose proof (ran_got (bm_id x) b s Hr) as H. destruct (c05_copies s x qs b Hr Hx) as [H1 H2]. destruct (decide (b ∈ qs)) as [Hb|Hb].
  - destruct (H1 Hb) as [H3 _]. split; [lia|done].
  - specialize (H2 Hb). split; [lia|]. intros _. lia.
Qed.
Lemma reach_POc s : reach s → ∀ c, Σ (e_b c) (log s) = 0 → PO c s.
Proof.
  revert s. apply (reach_inv (λ s, ∀ c, Σ (e_b c) (log s) = 0 → PO c s)).
  - intros k c _. split; [|done]. intros [|b]; done.
  - intros s o Hr I c H. apply api_PO, I; [done|]. destruct (api_logx o s) as [k Hk]. rewrite Hk, sum_list_with_app in H. lia.
  - intros s t u rest s1 new Hr I Ht E Hthr c H. eapply exec_PO; eauto. apply I. destruct (exec_logx _ _ _ _ E) as [k Hk].
    revert H. prj. rewrite Hk, sum_list_with_app. lia.
  - intros s Hr I Ho c H. apply free_PO, I. destruct (free_logx s) as [k Hk]. rewrite Hk, sum_list_with_app in H. lia.
Qed.
(** A broadcast that is not a stop signal is never received as one. *)
Lemma no_stop_copy s x qs : reachable s → happened (EvBcast x qs) s → ordinary x = true → ∀ r j, happened (EvRecv r (ToAll (BStop j))) s → j ≠ bm_id x.
Proof.
  intros Hr Hx Ho r j Hj ->. pose (c := λ m : bmsg, match m with BStop k => if k =? bm_id x then 1 else 0 | _ => 0 end).
  assert (Σ (e_b c) (log s) = 0) as H0.
  { apply sum_zero. intros e He. destruct e; try done. cbn. destruct b as [|k]; [done|]. cbn. destruct (Nat.eqb_spec k (bm_id x)) as [->|]; [|done]. exfalso.
    pose proof (c05_once s (bm_id x) Hr) as H1. unfold times in H1. apply elem_of_list_split in Hx as (l1 & l2 & E). rewrite E in *.
    unfold cnt in H1. rewrite List.filter_app in H1. cbn [List.filter broadcasted] in H1. rewrite Nat.eqb_refl, app_length in H1. cbn [length] in H1.
    assert (EvBcast (BStop (bm_id x)) qs0 ∈ l1 ++ l2) as Hin.
    { apply elem_of_app in He as [He|He]; [apply elem_of_app; by left|]. apply elem_of_cons in He as [He|He]; [|apply elem_of_app; by right].
      injection He as He _. by destruct x. }
    apply elem_of_app in Hin as [Hin|Hin];
      eapply (cnt_pos (broadcasted (bm_id x))) in Hin; try (cbn; by apply Nat.eqb_refl); unfold cnt in Hin; lia. }
  destruct (reach_POc s (reachable_reach _ Hr) c H0) as [_ H1].
  pose proof (sum_elem (e_rb c) _ _ Hj) as H2. cbn in H2. rewrite Nat.eqb_refl in H2. lia.
Qed.

(** ** At rest *)
Lemma rest_hols y : sys_reachable y → own y → (∀ l, ¬ inner y l) → ∀ c r, at_ (h_pd c) (hols (ch y)) r = 0.
Proof.
  intros Hy HOw Hn c r. unfold at_. destruct (hols (ch y) !! r) as [x|] eqn:Hx; [|done]. unfold h_pd. destruct (HOw r x Hx) as [-> |[-> |(j & t' & Hj & Hs)]]; [done..|].
  destruct (rest_tasks y Hy Hn j t' Hj) as [E|(r' & E & (h' & o' & rx & w & H4 & H5 & H6))]; [congruence|]. rewrite Hs in E. injection E as <-. rewrite Hx in H4. injection H4 as <-. by rewrite H5.
Qed.
Lemma rest_ran y i b x qs : sys_reachable y → own y → hb y → (∀ l, ¬ inner y l) → runs_on y i b → happened (EvBcast x qs) (ch y) → b ∈ qs → ordinary x = true →
  ran (bm_id x) b (ch y) = 1.
Proof.
  intros Hy HOw HB Hn (t & h & Ht & Hd & Hh & <-) Hx Hb Ho. destruct (sys_reach y Hy) as [Hr I].
  assert (qinv y) as [_ Hq] by (destruct Hy as (c & l & ->); apply qinv_run).
  destruct (c05_copies (ch y) x qs (h_bq h) Hr Hx) as [H1 _]. destruct (H1 Hb) as [_ H2]. clear H1.
  destruct (tinv_mb _ _ (proj1 I _ _ Ht) Hd) as (h0 & Hh0 & Hs0). rewrite Hh in Hh0. injection Hh0 as <-.
  assert (owned_queue (ch y) (h_bq h)) as HQ by (exists (t_mb t), h; split_and!; [done|by rewrite Hs0|done]). specialize (H2 HQ).
  destruct (rest_settled y Hy Hn) as [_ HS]. destruct (HS i t Ht) as [?|(r & k & Hr1 & Hk & _ & _ & Hbk & _)]; [done|].
  destruct (Hq i t r Ht Hr1) as (k' & Hk' & (h1 & Hh1 & _ & Hb1)). rewrite Hk in Hk'. injection Hk' as <-. rewrite Hh in Hh1. injection Hh1 as <-.
  assert (copies (bm_id x) (h_bq h) (ch y) = 0) as HC by (unfold copies; by rewrite Hb1, Hbk).
  assert (got (bm_id x) (h_bq h) (ch y) = 1) as HG by lia. clear HC H2.
  pose (c := λ m : bmsg, if ordinary m then wi (bm_id x) m else 0).
  assert (∀ z, Σ (e_hr z c) (log (ch y)) = Σ (e_rr z c) (log (ch y))) as HE.
  { intros z. specialize (HB z c ltac:(done)). unfold RH in HB. rewrite (rest_hols y Hy HOw Hn) in HB. lia. }
  pose proof (sums_eq (pq (ch y) (h_bq h)) c _ HE) as H3.
  assert (got (bm_id x) (h_bq h) (ch y) = Σ (λ e, if pq (ch y) (h_bq h) (rkey e) then w_r c e else 0) (log (ch y))) as HG1.
  { rewrite got_sum. apply sum_same. intros j e He%elem_of_list_lookup_2. case_match; [|done]. destruct e; try done. cbn. destruct a as [|m|]; try done. unfold c. destruct m as [|j']; [done|]. cbn.
    unfold wi. cbn. destruct (Nat.eqb_spec j' (bm_id x)) as [->|]; [|done]. exfalso. by eapply (no_stop_copy (ch y) x qs). }
  assert (Σ (λ e, if pq (ch y) (h_bq h) (rkey e) then w_h c e else 0) (log (ch y)) ≤ ran (bm_id x) (h_bq h) (ch y)) as HL.
  { rewrite ran_sum. apply sum_le. intros e. case_match; [|done]. unfold w_h, c. repeat case_match; lia. }
  pose proof (ran_got (bm_id x) (h_bq h) (ch y) Hr). lia.
Qed.
Definition binv (y : sys) : Prop := sys_reachable y ∧ own y ∧ hb y.
Lemma binv_step y x : binv y → inner y x → binv (sys_step y x).
Proof.
  intros (Hy & HOw & HB) Hx. destruct (sys_reach y Hy) as [Hr I]. apply reachable_reach in Hr. split_and!; [by apply sys_reachable_step| |by apply hb_step].
  apply own_step; [done..|]. by apply (inner_plain y x).
Qed.
Lemma binv_run c l : hands_off l → binv (sys_run (sys_init c) l).
Proof. intros Hl. split_and!; [by exists c, l|by apply own_run|by apply hb_run]. Qed.
Lemma broadcasts_handled c l : hands_off l →
  leads (λ z, ∀ i b x qs, runs_on z i b → happened (EvBcast x qs) (ch z) → b ∈ qs → ordinary x = true → ran (bm_id x) b (ch z) = 1) (sys_run (sys_init c) l).
Proof.
  intros Hl. apply (leads_all binv); [by intros y (? & _)|by apply binv_step| |by apply binv_run].
  intros y (Hy & HOw & HB) Hn i b x qs Hi Hx Hb Ho. by eapply rest_ran.
Qed.

(** ** Actors that exist when a broadcast is accepted *)
Lemma runs_step y l i b : sys_reachable y → runs_on y i b → runs_on (sys_step y l) i b ∨ finished (sys_step y l) i.
Proof.
  intros Hy (t & h & Ht & Hd & Hh & Hb).
  assert (∃ h', hols (ch (sys_step y l)) !! t_mb t = Some h' ∧ h_bq h' = b) as (h' & Hh' & Hb').
  { destruct (ch_step y l) as [-> |[o ->]]; [by exists h|]. destruct (step_same2 (ch y) o _ _ Hh) as (h' & Hh' & HB & _). exists h'. split; [done|]. by rewrite HB. }
  assert (∃ t', tk (sys_step y l) !! i = Some t' ∧ t_mb t' = t_mb t) as (t' & Ht' & Em).
  { destruct l as [o|r|j v|j]; cbn [sys_step].
    - case_match; by exists t.
    - repeat case_match; try (by exists t). exists t. split; [|done]. by apply lookup_app_l_Some.
    - destruct (tk y !! j) as [t2|] eqn:Ej; [|by exists t]. destruct (task_step t2 v (ch y)) as [[s' st]|]; [|by exists t]. cbn [tk].
      destruct (decide (j = i)) as [->|Hn]; [|exists t; split; [by rewrite list_lookup_insert_ne|done]]. rewrite Ht in Ej. injection Ej as <-.
      eexists. split; [apply list_lookup_insert; by eapply lookup_lt_Some|done].
    - destruct (tk y !! j) as [t2|] eqn:Ej; [|by exists t]. destruct (task_cancel t2 (ch y)) as [[s' st]|]; [|by exists t]. cbn [tk].
      destruct (decide (j = i)) as [->|Hn]; [|exists t; split; [by rewrite list_lookup_insert_ne|done]]. rewrite Ht in Ej. injection Ej as <-.
      eexists. split; [apply list_lookup_insert; by eapply lookup_lt_Some|done]. }
  destruct (t_st t') eqn:Es; [left|left|left|left|left|right; by exists t'].
  all: exists t', h'; split_and!; [done|by rewrite Es|by rewrite Em|done].
Qed.
Lemma newly_irrefl s e : ¬ newly s s e.
Proof. intros (k & E & He). unfold between in E. assert (length k = 0) as Hk by (apply (f_equal length) in E; rewrite app_length in E; lia). destruct k; [by apply elem_of_nil in He|done]. Qed.
Lemma newly_happened s s' e : newly s s' e → happened e s'.
Proof. intros (k & E & He). unfold happened. rewrite E. apply elem_of_app. by left. Qed.
Lemma done_step y l i : finished y i → finished (sys_step y l) i.
Proof.
  intros (t & Ht & Hd). unfold finished. destruct l as [o|r|j v|j]; cbn [sys_step].
  - case_match; by exists t.
  - repeat case_match; try (by exists t). exists t. split; [|done]. by apply lookup_app_l_Some.
  - destruct (tk y !! j) as [t2|] eqn:Ej; [|by exists t]. destruct (task_step t2 v (ch y)) as [[s' st]|] eqn:E; [|by exists t]. cbn [tk].
    destruct (decide (j = i)) as [->|Hn]; [|exists t; split; [by rewrite list_lookup_insert_ne|done]]. rewrite Ht in Ej. injection Ej as <-. unfold task_step in E. by rewrite Hd in E.
  - destruct (tk y !! j) as [t2|] eqn:Ej; [|by exists t]. destruct (task_cancel t2 (ch y)) as [[s' st]|] eqn:E; [|by exists t]. cbn [tk].
    destruct (decide (j = i)) as [->|Hn]; [|exists t; split; [by rewrite list_lookup_insert_ne|done]]. rewrite Ht in Ej. injection Ej as <-. unfold task_cancel in E. by rewrite Hd in E.
Qed.
Lemma log_step y l e : happened e (ch y) → happened e (ch (sys_step y l)).
Proof.
  intros H. destruct (ch_step y l) as [-> |[o ->]]; [done|]. unfold happened. destruct (step_logx (ch y) o) as [k ->]. apply elem_of_app. by right.
Qed.
Definition waits_for (x : bmsg) (qs : list nat) (i b : nat) (y : sys) : Prop := happened (EvBcast x qs) (ch y) ∧ (runs_on y i b ∨ finished y i).
Lemma waits_step x qs i b y l : sys_reachable y → waits_for x qs i b y → waits_for x qs i b (sys_step y l).
Proof.
  intros Hy [H1 H2]. split; [by apply log_step|]. destruct H2 as [H2|H2]; [|right; by apply done_step]. by apply runs_step.
Qed.
Lemma broadcast_every c l o l' i b x qs : let y := sys_run (sys_init c) l in
  hands_off (l ++ o :: l') → runs_on y i b → newly (ch y) (ch (sys_step y o)) (EvBcast x qs) → ordinary x = true →
  leads (λ z, finished z i ∨ runs_on z i b ∧ ran (bm_id x) b (ch z) = 1) (sys_run y (o :: l')).
Proof.
  intros y Hl Hi Hx Ho. assert (sys_reachable y) as Hy by (by exists c, l). destruct (sys_reach y Hy) as [Hr I].
  assert (b ∈ qs) as Hb.
  { destruct (ch_step y o) as [E|[a E]]; rewrite E in Hx; [by apply newly_irrefl in Hx|]. eapply c05_reaches; [exact Hr|exact Hx|].
    destruct Hi as (t & h & Ht & Hd & Hh & Hb). destruct (tinv_mb _ _ (proj1 I _ _ Ht) Hd) as (h0 & Hh0 & Hs0). rewrite Hh in Hh0. injection Hh0 as <-.
    exists (t_mb t), h. split_and!; [done|by rewrite Hs0|done]. }
  assert (waits_for x qs i b (sys_step y o)) as HW by (split; [by apply newly_happened in Hx|by apply runs_step]).
  assert (sys_run y (o :: l') = sys_run (sys_init c) (l ++ o :: l')) as E by (unfold y, sys_run; by rewrite fold_left_app).
  apply (leads_all (λ z, binv z ∧ waits_for x qs i b z)); [by intros z [(? & _) _]|..].
  - intros z k [HB HW'] Hk. split; [by apply binv_step|]. apply waits_step; [apply HB|done].
  - intros z [(Hz & HOw & HB) [Hx' [Hi'|Hf]]] Hn; [right|by left]. split; [done|]. by eapply rest_ran.
  - split; [rewrite E; by apply binv_run|]. clear E Hl. cbn [sys_run fold_left].
    assert (sys_reachable (sys_step y o)) as Hy1 by by apply sys_reachable_step. revert Hy1 HW. generalize (sys_step y o). clear. unfold sys_run.
    induction l' as [|a l IH]; intros z Hz HW; [done|]. cbn [fold_left]. apply IH; [by apply sys_reachable_step|by apply waits_step].
Qed.
