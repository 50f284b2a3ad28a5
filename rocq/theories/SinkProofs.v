(** Proofs about sinks. *)
From stdpp Require Import base numbers list list_numbers.
From Coq Require Import Lia.
From Verif Require Import Prio Heap State Model HeapProofs Frame Lib InvBusy InvCount Effects InvMsg InvMsg2
  InvHeap InvOne InvOne2 InvDisc InvWait InvWait2 InvFut InvCell WaitSpec InvWs InvBlk Mono InvSend InvErr Events InvSmall InvRep InvPoll InvBc InvLag InvConn InvEnd Spec Bridge
  FinalA FinalB FinalC FinalD FinalE FinalF FinalG WakeRel InvWake FinalH InvPrio Spec2 FinalI Sink SinkSpec ClaimsA ClaimsB ScopedProofs.

Lemma is_self k : is (um_id k) k = 1.
Proof. unfold is, isn. by rewrite Nat.eqb_refl. Qed.

(** ** Nothing happened to messages that do not exist yet *)
Definition e_conc (i : nat) (e : ev) : nat :=
  match e with EvAccept m | EvDone m _ | EvDrop m _ => isn i m | EvRecv _ (ToOne k) | EvHandle _ (ToOne k) => is i k | _ => 0 end.
Lemma new_zero s m : reach s → length (reps s) ≤ m → Σ (e_conc m) (log s) = 0.
Proof.
  intros Hr Hm. pose proof (reach_A s Hr m) as A. pose proof (reach_B s Hr m) as B. pose proof (reach_C s Hr m) as C. pose proof (reach_D s Hr m) as D.
  assert (lt1 m (length (reps s)) = 0) as El by (unfold lt1; by rewrite (proj2 (Nat.ltb_ge m (length (reps s))) Hm)).
  rewrite El in A.
  assert (Σ (e_acc m) (log s) ≤ Σ (e_pre m) (log s)) as L1 by (apply sum_le; intros []; cbn; lia).
  assert (Σ (e_recv m) (log s) ≤ Σ (e_mid m) (log s)) as L2 by (apply sum_le; intros []; cbn; repeat case_match; lia).
  assert (Σ (e_handle m) (log s) ≤ Σ (e_msg m) (log s)) as L3 by (apply sum_le; intros []; cbn; repeat case_match; lia).
  assert (Σ (e_conc m) (log s) ≤ Σ (e_pre m) (log s) + Σ (e_mid m) (log s) + Σ (e_msg m) (log s) + Σ (e_run m) (log s)) as L4.
  { rewrite <-!sum_add. apply sum_le. intros []; cbn; repeat case_match; try lia.
    destruct y; cbn; lia. }
  lia.
Qed.
Definition InvK (s : state) : Prop := ∀ m, EvBlocked m ∈ log s ∨ (∃ n, EvPrio m n ∈ log s) → m < length (reps s).
Lemma step_reps_len s o : length (reps s) ≤ length (reps (step s o)).
Proof.
  assert (∀ y, length (reps (collect y)) = length (reps y)) as Hc by (intros y; unfold collect; destruct (chan_owned y); [done|apply free_chan_lreps]).
  unfold step. rewrite Hc. destruct o; try apply api_reps_len. unfold do_step. destruct (thr s !! t) as [[|u rest]|]; try done.
  destruct (exec u s) as [s1 new] eqn:E. prj. by rewrite (exec_reps_len _ _ _ _ E).
Qed.
Lemma step_K s o : reach s → InvK s → InvK (step s o).
Proof.
  intros Hr I m Hm. pose proof (step_reps_len s o) as Hlen. destruct (step_logx s o) as [k Hk].
  assert ((EvBlocked m ∈ log s ∨ (∃ n, EvPrio m n ∈ log s)) ∨ newly s (step s o) (EvBlocked m) ∨ ∃ n, newly s (step s o) (EvPrio m n)) as [Hm'|[Hm'|[n Hm']]].
  { rewrite Hk in Hm. destruct Hm as [[Hm|Hm]%elem_of_app|[n [Hm|Hm]%elem_of_app]]; eauto.
    - right. left. by exists k.
    - right. right. exists n. by exists k. }
  - apply I in Hm'. lia.
  - destruct (step_evs _ _ _ Hm') as [(?&?&?)|Hn]; [done|].
    destruct o; try (by apply api_new_ev in Hn as [_ []]).
    destruct Hn as (k' & E & He). unfold between, do_step in E. destruct (thr s !! t) as [[|u rest]|] eqn:Ht.
    1,3: apply (app_inv_tail (log s) [] k') in E as <-; by apply elem_of_nil in He.
    destruct (exec u s) as [s1 new] eqn:Ex. destruct (exec_evs _ _ _ _ Ex) as (k2 & Hl & Hs). prjin E. rewrite Hl in E. apply app_inv_tail in E as ->.
    apply Hs in He as (f & x & b & -> & ->). pose proof (msum_head (g_pre (um_id x)) s t _ rest Ht) as HH. cbn in HH.
    rewrite is_self in HH. pose proof (reach_A s Hr (um_id x)) as A. unfold lt1 in A. destruct (Nat.ltb_spec (um_id x) (length (reps s))); lia.
  - destruct (prio_who _ _ _ _ Hm') as [(a & x & -> & Ha & Hl & -> & _)|(f & x & y & b & -> & Hf & Hl & Hs & <-)].
    + revert Ha Hl. intros Ha Hl. unfold step. assert (∀ y, length (reps (collect y)) = length (reps y)) as Hc by (intros y; unfold collect; destruct (chan_owned y); [done|apply free_chan_lreps]).
      rewrite Hc. cbn [api]. rewrite Ha. destruct x as [k1 ? []]; [|done]. prj. rewrite app_length. cbn. destruct k1; cbn; lia.
    + pose proof (sum_lookup (f_pre (um_id y)) _ _ _ Hf) as H. unfold f_pre in H at 1. rewrite Hs, is_self in H.
      pose proof (reach_A s Hr (um_id y)) as A. unfold lt1 in A. destruct (Nat.ltb_spec (um_id y) (length (reps s))); lia.
Qed.
Lemma reachable_K s : reachable s → InvK s.
Proof.
  intros (c & ops & ->). induction ops as [|o ops IH] using rev_ind.
  - intros m [?%elem_of_nil|[n ?%elem_of_nil]]; done.
  - rewrite run_app. cbn. apply step_K; [|done]. apply reachable_reach. by eexists _, _.
Qed.
Lemma concerns_lt s m e : reachable s → e ∈ log s → concerns m e → m < length (reps s).
Proof.
  intros HR He Hc. pose proof (reachable_reach _ HR) as Hr. destruct (decide (m < length (reps s))) as [|Hn]; [done|].
  destruct (decide (e_conc m e = 0)) as [E0|E0].
  - apply (reachable_K s HR). destruct e; try done; cbn in Hc, E0; subst.
    all: try (by left). all: try (right; by eexists).
    all: exfalso; try (destruct a; try done; cbn in E0; subst; rewrite is_self in E0; done). all: unfold isn in E0; rewrite Nat.eqb_refl in E0; done.
  - exfalso. apply elem_of_list_lookup in He as [i Hi]. pose proof (sum_lookup (e_conc m) _ _ _ Hi) as H.
    pose proof (new_zero s m Hr ltac:(lia)). lia.
Qed.

(** ** A send future that others do not touch *)
Lemma api_sf s o f x : sfs s !! f = Some x → touches_fut f o = false → sfs (api o s) !! f = Some x.
Proof.
  intros Hf Ho. pose proof (lookup_lt_Some _ _ _ Hf) as Hlt.
  destruct o; cbn [api touches_fut] in *; try apply Nat.eqb_neq in Ho; repeat dgoal; cbv zeta; unfold add_addr, call, put_sf; repeat dgoal;
    repeat (progress (prj; autorewrite with fr_sfs)); rewrite ?lookup_app_l, ?list_lookup_insert_ne by done; done.
Qed.
Definition sf_moved (f : nat) (x x' : sfut) (o : sout) : Prop :=
  sf_st x = SBusy ∧ sf_live x' = sf_live x ∧ sf_mode x' = sf_mode x ∧ sf_st x' ≠ SBusy ∧ (sf_st x' = SFin ↔ o ≠ OPending).
Lemma out_sf s y f x st o : sfs s !! f = Some x → sf_st x = SBusy → sfs y = sfs s → log y = log s → st ≠ SBusy → (st = SFin ↔ o ≠ OPending) →
  ∀ z, z = send_out f st o y ∨ z = emit EvPanic (send_out f st o y) →
  ∃ x' o k, sfs z !! f = Some x' ∧ sf_moved f x x' o ∧ log z = k ++ EvSend f o :: log s ∧ ∀ o', EvSend f o' ∉ k.
Proof.
  intros Hf Hb Ey El H1 H2 z Hz.
  assert (sfs z !! f = Some (SF st (sf_mode x) (sf_live x) (sf_wk x)) ∧ log (send_out f st o y) = EvSend f o :: log s) as [Hs Hl].
  { assert (sfs (send_out f st o y) !! f = Some (SF st (sf_mode x) (sf_live x) (sf_wk x)) ∧ log (send_out f st o y) = EvSend f o :: log s) as [? ?].
    { unfold send_out, set_sst, emit. rewrite Ey, Hf. prj. split; [rewrite ?Ey; apply list_lookup_insert; by eapply lookup_lt_Some|by rewrite El]. }
    split; [|done]. by destruct Hz as [->| ->]. }
  eexists _, o, (match log z with EvPanic :: _ => [EvPanic] | _ => [] end). split; [exact Hs|]. split; [by split_and!|].
  destruct Hz as [->| ->]; [|unfold emit; prj]; rewrite Hl; split; try done; [by intros ? ?%elem_of_nil|intros ? ?%elem_of_list_singleton; discriminate].
Qed.
Lemma exec_sf s t u rest s1 new f x m : reach s → thr s !! t = Some (u :: rest) → exec u s = (s1, new) → sfs s !! f = Some x → sf_mode x = MReturn m →
  (sfs s1 !! f = Some x ∧ ∃ k, log s1 = k ++ log s ∧ ∀ o, EvSend f o ∉ k) ∨
  (∃ x' o k, sfs s1 !! f = Some x' ∧ sf_moved f x x' o ∧ log s1 = k ++ EvSend f o :: log s ∧ ∀ o', EvSend f o' ∉ k).
Proof.
  intros Hr Ht E Hf Hm. destruct (exec_evs _ _ _ _ E) as (k & Hk & Hs).
  destruct (decide (g_sf f u = 1)) as [Hg|Hg].
  - destruct (busyF_at s t u rest f Hr Ht Hg) as (sf & Hf' & Hb). rewrite Hf in Hf'. injection Hf' as <-.
    assert (∀ st, <[f:=SF st (sf_mode x) (sf_live x) (sf_wk x)]> (sfs s) !! f = Some (SF st (sf_mode x) (sf_live x) (sf_wk x))) as Hi
      by (intros; apply list_lookup_insert; by eapply lookup_lt_Some).
    clear k Hk Hs.
    exec_cases u E; cbn in Hg; try discriminate; destruct (Nat.eqb_spec f0 f) as [->|]; try discriminate.
    all: try (left; split; [by repeat (progress (prj; autorewrite with fr_sfs))|]).
    all: try (first [exists []; split; [by repeat (progress (prj; autorewrite with fr_log))|by intros ? ?%elem_of_nil]
                    |eexists [_]; split; [by repeat (progress (prj; autorewrite with fr_log))|intros ? ?%elem_of_list_singleton; discriminate]]).
    all: try (exfalso; congruence).
    all: try (right; eapply (out_sf s); [exact Hf|exact Hb| | | | |first [by left|by right]]; try done; try (by repeat (progress (prj; autorewrite with fr_sfs fr_log))); by split).
  - left. split.
    + clear k Hk Hs. exec_cases u E; repeat (progress (prj; autorewrite with fr_sfs)); try done.
      all: cbn in Hg; match type of Hg with context [?a =? ?b] => destruct (Nat.eqb_spec a b) end; try (by exfalso; apply Hg).
      all: unfold send_out, set_sst, emit; repeat dgoal; repeat (progress (prj; autorewrite with fr_sfs)); rewrite ?list_lookup_insert_ne, ?list_lookup_alter_ne by done; try done.
    + exists k. split; [done|]. intros o Ho. apply Hs in Ho. apply Hg. cbn in Ho.
      destruct Ho as [[-> _]|[[-> _]|[[? ->]|[? [[-> | ->] _]]]]]; cbn; by rewrite Nat.eqb_refl.
Qed.
Lemma collect_sfs y : sfs (collect y) = sfs y.
Proof. unfold collect. destruct (chan_owned y); [done|]. by autorewrite with fr_sfs. Qed.
Lemma collect_ev y f : ∃ k, log (collect y) = k ++ log y ∧ ∀ o, EvSend f o ∉ k.
Proof.
  destruct (collect_log y) as (k & E & H). exists k. split; [done|]. intros o Ho. by destruct (H _ Ho) as (? & ? & ?).
Qed.
Lemma step_sf s o f x m : reach s → sfs s !! f = Some x → sf_mode x = MReturn m → touches_fut f o = false →
  (sfs (step s o) !! f = Some x ∧ ∃ k, log (step s o) = k ++ log s ∧ ∀ o, EvSend f o ∉ k) ∨
  (∃ x' o' k, sfs (step s o) !! f = Some x' ∧ sf_moved f x x' o' ∧ log (step s o) = k ++ EvSend f o' :: log s ∧ ∀ o'', EvSend f o'' ∉ k).
Proof.
  intros Hr Hf Hm Ho. unfold step. set (y := match o with Step t => do_step t s | _ => api o s end).
  destruct (collect_ev y f) as (k & Ek & Hk). rewrite collect_sfs, Ek.
  assert ((sfs y !! f = Some x ∧ ∃ k, log y = k ++ log s ∧ ∀ o, EvSend f o ∉ k) ∨
    (∃ x' o' k, sfs y !! f = Some x' ∧ sf_moved f x x' o' ∧ log y = k ++ EvSend f o' :: log s ∧ ∀ o'', EvSend f o'' ∉ k)) as H.
  { assert ((∀ t, o ≠ Step t) → (sfs (api o s) !! f = Some x ∧ ∃ k, log (api o s) = k ++ log s ∧ ∀ o, EvSend f o ∉ k)) as HA.
    { intros _. split; [by apply api_sf|]. destruct (api_evs o s) as [E|(e & E & Hs)]; rewrite E.
      - exists []. split; [done|]. by intros ? ?%elem_of_nil.
      - exists [e]. split; [done|]. by intros ? <-%elem_of_list_singleton. }
    destruct o; try (left; by apply HA). clear HA. subst y. unfold do_step. destruct (thr s !! t) as [[|u rest]|] eqn:Ht.
    1,3: left; split; [done|]; exists []; split; [done|]; by intros ? ?%elem_of_nil.
    destruct (exec u s) as [s1 new] eqn:E. prj. by eapply exec_sf. }
  destruct H as [(H1 & k' & E' & H2)|(x' & o' & k' & H1 & H2 & E' & H3)].
  - left. split; [done|]. exists (k ++ k'). split; [by rewrite E', app_assoc|]. intros ? [?|?]%elem_of_app; [by eapply Hk|by eapply H2].
  - right. exists x', o', (k ++ k'). split; [done|]. split; [done|]. split; [by rewrite E', <-app_assoc|]. intros ? [?|?]%elem_of_app; [by eapply Hk|by eapply H3].
Qed.
Lemma api_ad s o a x : addrs s !! a = Some x → touches_addr a o = false → addrs (api o s) !! a = Some x.
Proof.
  intros Hf Ho. pose proof (lookup_lt_Some _ _ _ Hf) as Hlt.
  destruct o; cbn [api touches_addr] in *; try apply Nat.eqb_neq in Ho; repeat dgoal; cbv zeta; unfold add_addr, call, put_sf; repeat dgoal;
    repeat (progress (prj; autorewrite with fr_addrs)); rewrite ?lookup_app_l, ?list_lookup_insert_ne by done; done.
Qed.
Lemma exec_ad s u s1 new : exec u s = (s1, new) → addrs s1 = addrs s.
Proof. intros E. exec_cases u E; by repeat (progress (prj; autorewrite with fr_addrs)). Qed.
Lemma step_ad s o a x : addrs s !! a = Some x → touches_addr a o = false → addrs (step s o) !! a = Some x.
Proof.
  intros Hf Ho. unfold step. assert (∀ y, addrs (collect y) = addrs y) as Hc by (intros y; unfold collect; destruct (chan_owned y); [done|by autorewrite with fr_addrs]).
  rewrite Hc. destruct o; try (by apply api_ad). unfold do_step. destruct (thr s !! t) as [[|u rest]|]; try done.
  destruct (exec u s) as [s1 new] eqn:E. prj. by rewrite (exec_ad _ _ _ _ E).
Qed.

(** ** The invariant *)
Lemma newest_none f l : newest_send f l = None ↔ ∀ o, EvSend f o ∉ l.
Proof.
  induction l as [|e l IH]; [split; [by intros _ ? ?%elem_of_nil|done]|]. split.
  - intros H o [<-|Ho]%elem_of_cons; [cbn in H; by rewrite Nat.eqb_refl in H|]. revert o Ho. apply IH. destruct e; try done. cbn in H. by destruct (f0 =? f).
  - intros H. assert (newest_send f l = None) as Hl by (apply IH; intros o Ho; apply (H o); by right).
    destruct e; try done. cbn. destruct (Nat.eqb_spec f0 f) as [->|]; [|done]. exfalso. apply (H o). by left.
Qed.
Lemma newest_app f k l : newest_send f (k ++ l) = match newest_send f k with Some o => Some o | None => newest_send f l end.
Proof. induction k as [|e k IH]; [done|]. destruct e; try done. cbn. by destruct (f0 =? f). Qed.
Definition since (n : nat) (s : state) : list ev := take (length (log s) - n) (log s).
Lemma since_app n s s' k : n ≤ length (log s) → log s' = k ++ log s → since n s' = k ++ since n s.
Proof.
  intros Hn E. unfold since. rewrite E, app_length, take_app_ge by lia. f_equal. f_equal. lia.
Qed.
Definition sdone (s : state) (m : nat) : Prop := ∃ v, EvDone m v ∈ log s.
Definition sk_wait (s : state) (st : kst) (f : nat) (x : sfut) : Prop :=
  match st with
  | KPoll _ n => n ≤ length (log s) ∧ (∀ o, EvSend f o ∈ since n s → newest_send f (since n s) = Some o) ∧
      match newest_send f (since n s) with
      | None => sf_st x = SBusy
      | Some OPending => sf_st x ≠ SFin ∧ sf_st x ≠ SBusy
      | Some _ => sf_st x ≠ SBusy
      end
  | _ => sf_st x ≠ SFin ∧ sf_st x ≠ SBusy
  end.
Definition sk_ok (s : state) (st : kst) (fed : list nat) : Prop :=
  match st with
  | KIdle => ∀ m, m ∈ fed → sdone s m
  | KSend f | KPoll f _ => ∃ fed' m x, fed = fed' ++ [m] ∧ (∀ m', m' ∈ fed' → sdone s m') ∧
      sfs s !! f = Some x ∧ sf_mode x = MReturn m ∧ sf_live x = true ∧ sk_wait s st f x
  | _ => ∀ i m, fed !! i = Some m → S i < length fed → sdone s m
  end.
Definition InvS (x : sks) : Prop :=
  let '(SK s a st fed h) := x in
  reachable s ∧ (∀ m, m ∈ fed → m < length (reps s)) ∧
  (∀ i j mi mj, fed !! i = Some mi → fed !! j = Some mj → i < j → done_before s mi mj) ∧
  sk_ok s st fed ∧ (st ≠ KGone → live_address s a).
Lemma prev_done s st fed : sk_ok s st fed → ∀ i m, fed !! i = Some m → S i < length fed → sdone s m.
Proof.
  destruct st; cbn; try done.
  - intros H i m Hi _. apply H. by eapply elem_of_list_lookup_2.
  - intros (fed' & k & x & -> & H & _) i m Hi Hl. rewrite app_length in Hl. cbn in Hl. rewrite lookup_app_l in Hi by lia. apply H. by eapply elem_of_list_lookup_2.
  - intros (fed' & k & x & -> & H & _) i m Hi Hl. rewrite app_length in Hl. cbn in Hl. rewrite lookup_app_l in Hi by lia. apply H. by eapply elem_of_list_lookup_2.
Qed.
Lemma done_mono s s' k m : log s' = k ++ log s → sdone s m → sdone s' m.
Proof. intros E [v H]. exists v. rewrite E. apply elem_of_app. by right. Qed.
Lemma order_mono s s' k m m' : log s' = k ++ log s → sdone s m → done_before s m m' → done_before s' m m'.
Proof.
  intros E [v Hv] H l1 e l2 El Hc. rewrite E in El. apply app_eq_app in El as [l [[E1 E2]|[E1 E2]]].
  - destruct l as [|y l]; cbn in E2.
    + subst k. rewrite <-E2 in *. by apply (H [] e l2).
    + injection E2 as <- ->. exists v. apply elem_of_app. by right.
  - by eapply (H l).
Qed.
Lemma order_new s s' k m m' : reachable s → log s' = k ++ log s → sdone s m → length (reps s) ≤ m' → done_before s' m m'.
Proof.
  intros Hr E [v Hv] Hm l1 e l2 El Hc. rewrite E in El. apply app_eq_app in El as [l [[E1 E2]|[E1 E2]]].
  - destruct l as [|y l]; cbn in E2.
    + pose proof (concerns_lt s m' e Hr) as H. rewrite <-E2 in H. specialize (H ltac:(by left) Hc). lia.
    + injection E2 as <- ->. exists v. apply elem_of_app. by right.
  - pose proof (concerns_lt s m' e Hr) as H. rewrite E2 in H. specialize (H ltac:(apply elem_of_app; right; by left) Hc). lia.
Qed.
(** What a step of the channel leaves intact. *)
Lemma invS_main s s' k a st st' fed h h' : InvS (SK s a st fed h) → reachable s' → length (reps s) ≤ length (reps s') → log s' = k ++ log s →
  sk_ok s' st' fed → (st' ≠ KGone → live_address s' a) → InvS (SK s' a st' fed h').
Proof.
  intros (I1 & I2 & I3 & I4 & I5) Hr Hl E Hok Ha. split_and!; try done.
  - intros m Hm. apply I2 in Hm. lia.
  - intros i j mi mj Hi Hj Hij. eapply order_mono; [done| |by eapply I3]. eapply prev_done; [done..|]. apply lookup_lt_Some in Hj. lia.
Qed.
Lemma sk_wait_ext s s' k f x st : sk_wait s st f x → log s' = k ++ log s → (∀ o, EvSend f o ∉ k) → sk_wait s' st f x.
Proof.
  intros H E Hk. destruct st; try done. cbn in *. destruct H as (Hn & H1 & H2). rewrite (since_app n s s' k) by done.
  rewrite newest_app, (proj2 (newest_none f k) Hk). split; [rewrite E, app_length; lia|]. split; [|done].
  intros o [Ho|Ho]%elem_of_app; [by apply Hk in Ho|by apply H1].
Qed.
Lemma sk_wait_moved s s' k f x x' o st : sk_wait s st f x → sf_moved f x x' o → log s' = k ++ EvSend f o :: log s → (∀ o, EvSend f o ∉ k) → sk_wait s' st f x'.
Proof.
  intros H (M1 & M2 & M3 & M4 & M5) E Hk. destruct st; try (by destruct H). cbn in *. destruct H as (Hn & H1 & H2).
  assert (log s' = (k ++ [EvSend f o]) ++ log s) as E' by (by rewrite <-app_assoc).
  rewrite (since_app n s s' _ Hn E'). rewrite !newest_app, (proj2 (newest_none f k) Hk). cbn. rewrite Nat.eqb_refl.
  split; [rewrite E', !app_length; cbn; lia|].
  destruct (newest_send f (since n s)) as [o1|] eqn:En; [by destruct o1; naive_solver|].
  split.
  - intros o' [[Ho|Ho%elem_of_list_singleton]%elem_of_app|Ho]%elem_of_app; [by apply Hk in Ho|by simplify_eq|]. by apply (proj1 (newest_none _ _) En) in Ho.
  - destruct o; try done. split; [|done]. intros Hfin. by apply M5 in Hfin.
Qed.
Lemma sk_ok_step s o st fed : reachable s → sk_ok s st fed → (∀ f n, st = KSend f ∨ st = KPoll f n → touches_fut f o = false) → sk_ok (step s o) st fed.
Proof.
  intros Hr Hok Ht. destruct (step_logx s o) as [k0 E0].
  assert (∀ f, st = KSend f ∨ (∃ n, st = KPoll f n) → (∃ fed' m x, fed = fed' ++ [m] ∧ (∀ m', m' ∈ fed' → sdone s m') ∧
      sfs s !! f = Some x ∧ sf_mode x = MReturn m ∧ sf_live x = true ∧ sk_wait s st f x) →
     ∃ fed' m x, fed = fed' ++ [m] ∧ (∀ m', m' ∈ fed' → sdone (step s o) m') ∧
      sfs (step s o) !! f = Some x ∧ sf_mode x = MReturn m ∧ sf_live x = true ∧ sk_wait (step s o) st f x) as HW.
  { intros f Hst (fed' & m & x & E & Hd & Hf & Hm & Hl & Hw). exists fed', m.
    assert (touches_fut f o = false) as Ho by (destruct Hst as [->|[n ->]]; [by apply (Ht f 0); left|by apply (Ht f n); right]).
    destruct (step_sf s o f x m (reachable_reach _ Hr) Hf Hm Ho) as [(H1 & k & Ek & Hk)|(x' & o' & k & H1 & H2 & Ek & Hk)].
    - exists x. split_and!; try done; [intros m' Hm'; eapply done_mono; [done|by apply Hd]|by eapply sk_wait_ext].
    - exists x'. destruct H2 as (M1 & M2 & M3 & M4 & M5). split_and!; try done; try congruence; [intros m' Hm'; eapply (done_mono s); [exact E0|by apply Hd]|].
      eapply sk_wait_moved; [done| |done..]. by split_and!. }
  destruct st; cbn [sk_ok] in *.
  - intros m Hm. eapply done_mono; [done|by apply Hok].
  - apply HW; [by left|done].
  - apply HW; [right; by eexists|done].
  - intros i m Hi Hl. eapply done_mono; [done|by eapply Hok].
  - intros i m Hi Hl. eapply done_mono; [done|by eapply Hok].
Qed.
Lemma live_step s o a : live_address s a → touches_addr a o = false → live_address (step s o) a.
Proof. intros (x & Hx & Hl) Ho. exists x. split; [by apply step_ad|done]. Qed.
Lemma gone_ok s st fed : sk_ok s st fed → sk_ok s KGone fed.
Proof. intros H. cbn. by eapply prev_done. Qed.
Lemma no_send s o f o' k : (∀ t, o ≠ Step t) → log (step s o) = k ++ log s → EvSend f o' ∉ k.
Proof.
  intros Ho E H. assert (newly s (step s o) (EvSend f o')) as Hn by (by exists k).
  destruct (step_evs _ _ _ Hn) as [(?&?&?)|Hn']; [done|]. destruct o; try (by apply api_new_ev in Hn' as [_ []]). by eapply Ho.
Qed.
Lemma newest_in f l o : newest_send f l = Some o → EvSend f o ∈ l.
Proof.
  induction l as [|e l IH]; [done|]. intros H. assert (e = EvSend f o ∨ newest_send f l = Some o) as [->|H'].
  { destruct e; try (by right). cbn in H. destruct (Nat.eqb_spec f0 f) as [->|]; [left; congruence|by right]. }
  - by left.
  - right. by apply IH.
Qed.
Lemma invS_step x o : InvS x → InvS (sk_step x o).
Proof.
  destruct x as [s a st fed h]. intros HI. pose proof HI as (I1 & I2 & I3 & I4 & I5).
  pose proof (prev_done _ _ _ I4) as Hprev.
  assert (∀ o, reachable (step s o)) as HR by (intros; by apply step_reachable).
  destruct o as [o| | | |]; cbn [sk_step].
  - destruct (touches_sink _ o) eqn:Ho; [done|]. unfold touches_sink in Ho. cbn [sk_st sk_addr] in Ho. destruct (step_logx s o) as [k Ek].
    eapply invS_main; [exact HI|done|apply step_reps_len|done| |].
    + apply sk_ok_step; [done..|]. intros f n [->| ->]; apply orb_false_iff in Ho; by destruct Ho.
    + intros Hst. apply live_step; [by apply I5|]. destruct st; try done; apply orb_false_iff in Ho; by destruct Ho.
  - destruct st; try done.
    destruct I5 as (ad & Had & Hlive); [done|].
    destruct (step_logx s (ASend a)) as [k Ek]. destruct ad as [kk ee []]; [|done].
    assert (length (reps (step s (ASend a))) = S (length (reps s)) ∧
      sfs (step s (ASend a)) !! length (sfs s) = Some (SF (SNew (PU (UM (length (reps s)) 0)) kk) (MReturn (length (reps s))) true 0) ∧
      addrs (step s (ASend a)) = addrs s) as (Hlen & Hsf & Hads).
    { unfold step. assert (∀ y, length (reps (collect y)) = length (reps y)) as Hc by (intros y; unfold collect; destruct (chan_owned y); [done|apply free_chan_lreps]).
      assert (∀ y, addrs (collect y) = addrs y) as Hc' by (intros y; unfold collect; destruct (chan_owned y); [done|by autorewrite with fr_addrs]).
      rewrite Hc, Hc', collect_sfs. cbn [api]. rewrite Had. prj.
      split; [|split]; [rewrite app_length; cbn; destruct kk; cbn; lia|by apply list_lookup_middle|by destruct kk]. }
    split_and!.
    + apply HR.
    + intros m [Hm|Hm%elem_of_list_singleton]%elem_of_app; [apply I2 in Hm; lia|lia].
    + intros i j mi mj Hi Hj Hij. apply lookup_app_Some in Hj as [Hj|[Hge Hj]].
      * rewrite lookup_app_l in Hi by (apply lookup_lt_Some in Hj; lia). eapply order_mono; [done| |by eapply I3]. apply I4. by eapply elem_of_list_lookup_2.
      * apply list_lookup_singleton_Some in Hj as [Hj <-]. rewrite lookup_app_l in Hi by lia.
        eapply order_new; [exact I1|done| |done]. apply I4. by eapply elem_of_list_lookup_2.
    + cbn. eexists fed, _, _. split; [done|]. split; [intros m Hm; eapply done_mono; [done|by apply I4]|]. split; [exact Hsf|]. by split_and!.
    + intros _. eexists. rewrite Hads. by split.
  - destruct st; try done. destruct I4 as (fed' & m & x & -> & Hd & Hf & Hm & Hl & Hw). destruct (step_logx s (APollSend f)) as [k Ek].
    destruct Hw as [Hw1 Hw2].
    assert (∃ x', sfs (step s (APollSend f)) !! f = Some x' ∧ sf_st x' = SBusy ∧ sf_mode x' = MReturn m ∧ sf_live x' = true) as (x' & H1 & H2 & H3 & H4).
    { unfold step. rewrite collect_sfs. cbn [api]. rewrite Hf. destruct x as [st md [] w]; [|done]. cbn in Hm. subst md. cbn in Hw1, Hw2.
      exists (SF SBusy (MReturn m) true (nwk s)). split; [|done].
      destruct st; try done; unfold call, put_sf; prj; apply list_lookup_insert; by eapply lookup_lt_Some. }
    eapply invS_main; [exact HI|apply HR|apply step_reps_len|exact Ek| |].
    + assert (∀ o, EvSend f o ∉ k) as Hk by (intros o; by apply (no_send s (APollSend f))).
      eexists fed', m, x'. split; [done|]. split; [intros m' Hm'; eapply done_mono; [done|by apply Hd]|]. split; [done|]. split; [done|]. split; [done|].
      cbn. assert (since (length (log s)) (step s (APollSend f)) = k) as Es.
      { rewrite (since_app _ s _ k) by done. unfold since. rewrite Nat.sub_diag. cbn. by rewrite app_nil_r. }
      split; [rewrite Ek, app_length; lia|]. rewrite Es. rewrite (proj2 (newest_none f k) Hk). split; [|done]. intros o Ho. by apply Hk in Ho.
    + intros _. apply live_step; [by apply I5|done].
  - destruct st; try done. fold (since n s). destruct (newest_send f (since n s)) as [o|] eqn:En; [|done].
    destruct I4 as (fed' & m & x & -> & Hd & Hf & Hm & Hl & Hn & Hu & Hw). rewrite En in Hw.
    assert (∀ st' h', sk_ok s st' (fed' ++ [m]) → (st' ≠ KGone → live_address s a) → InvS (SK s a st' (fed' ++ [m]) h')) as HC.
    { intros st' h' H1 H2. eapply (invS_main s s []); [exact HI|done..]. }
    destruct o; try (apply HC; [exact Hprev|intros _; by apply I5]).
    + apply HC; [|intros _; by apply I5]. eexists fed', m, x. by split_and!.
    + apply HC; [|intros _; by apply I5]. cbn [sk_ok]. intros m' [Hm'|Hm'%elem_of_list_singleton]%elem_of_app; [by apply Hd|]. subst m'.
      apply newest_in in En. assert (happened (EvSend f (OValue v)) s) as He.
      { unfold happened. unfold since in En. eapply elem_of_list_lookup in En as [i Hi]. apply lookup_take_Some in Hi as [Hi _]. by eapply elem_of_list_lookup_2. }
      destruct (c28_value s f v I1 He) as (y & m' & Hy & Hmy & Hdone). rewrite Hf in Hy. injection Hy as <-. rewrite Hm in Hmy. injection Hmy as <-. by exists v.
  - assert (∀ s' k h', reachable s' → length (reps s) ≤ length (reps s') → log s' = k ++ log s → InvS (SK s' a KGone fed h')) as HC.
    { intros s' k h' H1 H2 H3. eapply invS_main; [exact HI|done..| |done]. cbn. intros i m Hi Hli. eapply done_mono; [exact H3|by eapply Hprev]. }
    destruct st; try done.
    + destruct (step_logx s (ADropAddr a)) as [k Ek]. eapply HC; [apply HR|apply step_reps_len|exact Ek].
    + destruct (step_logx s (ADropAddr a)) as [k Ek]. destruct (step_logx (step s (ADropAddr a)) (ADropSend f)) as [k2 Ek2].
      eapply (HC _ (k2 ++ k)); [by apply step_reachable| |by rewrite Ek2, Ek, app_assoc].
      pose proof (step_reps_len s (ADropAddr a)). pose proof (step_reps_len (step s (ADropAddr a)) (ADropSend f)). lia.
    + destruct (step_logx s (ADropAddr a)) as [k Ek]. eapply HC; [apply HR|apply step_reps_len|exact Ek].
Qed.
Lemma sk_inv s a ops : reachable s → live_address s a → InvS (sk_run (sk_new s a) ops).
Proof.
  intros Hr Ha. unfold sk_run. assert (InvS (sk_new s a)) as H.
  { split_and!; try done; by intros m ?%elem_of_nil. }
  revert H. generalize (sk_new s a). induction ops as [|o ops IH]; intros x Hx; [done|]. cbn. apply IH, invS_step, Hx.
Qed.

(** ** Flushing *)
Definition after (o : sout) (f : nat) : kst := match o with OPending => KSend f | OValue _ => KIdle | _ => KEmpty end.
Definition result (o : sout) : kev := match o with OPending => KPending | OValue _ => KOk | o => KErr o end.
Lemma sk_run_app x k l : sk_run x (k ++ l) = sk_run (sk_run x k) l.
Proof. apply fold_left_app. Qed.
Lemma sk_steps s a f n fed h t k : sk_run (SK s a (KPoll f n) fed h) (replicate k (KMain (Step t))) = SK (run s (replicate k (Step t))) a (KPoll f n) fed h.
Proof. revert s. induction k as [|k IH]; intros s; [done|]. cbn. apply IH. Qed.
Lemma flush_result x f o : InvS x → sk_st x = KSend f → resolves_to (sk_main x) f o →
  ∃ n, let y := sk_run x (KFlush :: replicate n (KMain (Step (length (thr (sk_main x))))) ++ [KResult]) in
  sk_st y = after o f ∧ sk_hist y = sk_hist x ++ [result o].
Proof.
  destruct x as [s a st fed h]. cbn [sk_st sk_main sk_hist]. intros HI -> (n & k & Hk & He). exists n. cbv zeta.
  set (t := length (thr s)) in *.
  assert (sk_run (SK s a (KSend f) fed h) (KFlush :: replicate n (KMain (Step t))) = SK (run s (APollSend f :: replicate n (Step t))) a (KPoll f (length (log s))) fed h) as E.
  { change (KFlush :: replicate n (KMain (Step t))) with ([KFlush] ++ replicate n (KMain (Step t))). rewrite sk_run_app. cbn [sk_run fold_left sk_step]. by rewrite sk_steps. }
  rewrite app_comm_cons, sk_run_app, E.
  assert (InvS (sk_run (SK s a (KSend f) fed h) (KFlush :: replicate n (KMain (Step t))))) as HI'.
  { clear E. unfold sk_run. generalize (KFlush :: replicate n (KMain (Step t))). intros l. revert HI. generalize (SK s a (KSend f) fed h).
    induction l as [|q l IH]; intros x Hx; [done|]. cbn. apply IH, invS_step, Hx. }
  rewrite E in HI'. destruct HI' as (_ & _ & _ & (fed' & m & x & _ & _ & _ & _ & _ & Hn & Hu & _) & _).
  set (s' := run s (APollSend f :: replicate n (Step t))) in *.
  assert (since (length (log s)) s' = k) as Es.
  { rewrite (since_app _ s _ k) by done. unfold since. rewrite Nat.sub_diag. cbn. by rewrite app_nil_r. }
  rewrite Es in Hu. specialize (Hu o He). cbn [sk_run fold_left sk_step]. fold (since (length (log s)) s'). rewrite Es, Hu. by destruct o.
Qed.
Lemma fed_starts s a ops : sk_fed (sk_run (sk_new s a) ops) = starts (sk_hist (sk_run (sk_new s a) ops)).
Proof.
  unfold sk_run. assert (sk_fed (sk_new s a) = starts (sk_hist (sk_new s a))) as H by done. revert H. generalize (sk_new s a).
  induction ops as [|o ops IH]; intros x Hx; [done|]. cbn. apply IH. destruct x as [s' a' st fed h]. cbn in *. subst fed.
  assert (∀ e, starts (h ++ [e]) = starts h ++ match e with KStart m => [m] | _ => [] end) as Hs.
  { intros e. unfold starts. rewrite list.omap_app. by destruct e. }
  destruct o; cbn; repeat case_match; cbn; rewrite ?Hs, ?app_nil_r; done.
Qed.
