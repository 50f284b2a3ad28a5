(** Which action can cause which event. *)
From stdpp Require Import base numbers list list_numbers.
From Coq Require Import Lia.
From Verif Require Import Prio Heap State Model HeapProofs Frame Lib Effects InvMsg Mono.

Definition ev_src (u : micro) (e : ev) : Prop :=
  match e with
  | EvPrio _ _ | EvHandle _ _ | EvDone _ _ | EvJoin _ _ | EvUpgrade _ _ | EvUserPanic _ => False
  | EvAccept _ => (∃ f m k, u = USendLock f (PU m) k) ∨ ∃ r, u = UTryRecv r
  | EvBlocked m => ∃ f x k, u = USendLock f (PU x) k ∧ m = um_id x
  | EvBcast b _ => (∃ f k, u = USendLock f (PB b) k) ∨ (∃ r, u = UTryRecv r ∨ u = UNextBc r) ∨ u = UStopAll
  | EvRecv r a => u = UTryRecv r ∨ (∃ o, u = UPollOne r o) ∨ u = UNextBc r
  | EvRecvPending r => ∃ o, u = UPollOne r o
  | EvFlow r b => u = UFlow r b
  | EvDrop m y => (u = URxShutdown ∧ (y = DCleared ∨ y = DClosed)) ∨ ∃ x, u = UDropMsg x y ∧ m = um_id x
  | EvSend f o =>
      (u = USendErr f ∧ o = OErrDisconnected) ∨ (u = USendOk f ∧ (o = OOk ∨ o = OPanic ∨ ∃ x, o = OReceiver x)) ∨
      (∃ m, u = UReplyPoll f m) ∨ (∃ c, (u = USendCell1 f c ∨ u = USendCellA f c) ∧ (o = OPending ∨ o = OPanic))
  | EvReceiver x o => u = URcvPoll x
  | EvConn a b => u = UConnLd1 a ∨ u = UConnLd2 a
  | EvPanic => (∃ r, u = UTryRecv r ∨ ∃ o, u = UPollOne r o) ∨ (∃ f, u = USendOk f ∨ ∃ c, u = USendCell1 f c ∨ u = USendCellA f c)
  end.

Lemma drop_umsgs_evs y l s : ∃ k, log (drop_umsgs y l s) = k ++ log s ∧ ∀ e, e ∈ k → ∃ m, e = EvDrop m y.
Proof.
  unfold drop_umsgs. revert s; induction l as [|m l IH]; intros s; cbn.
  { exists []. split; [done|]. by intros e ?%elem_of_nil. }
  destruct (IH (drop_umsg y m s)) as (k & -> & H). rewrite drop_umsg_log. exists (k ++ [EvDrop (um_id m) y]).
  split; [by rewrite <-app_assoc|]. intros e [?|?%elem_of_list_singleton]%elem_of_app; eauto.
Qed.
Lemma close_handles1_evs l s : ∃ k, log (fold_left close_handle1 l s) = k ++ log s ∧ ∀ e, e ∈ k → ∃ m, e = EvDrop m DClosed.
Proof.
  revert s; induction l as [|c l IH]; intros s; cbn.
  { exists []. split; [done|]. by intros e ?%elem_of_nil. }
  destruct (IH (close_handle1 s c)) as (k & -> & H). unfold close_handle1.
  destruct (cells1 s !! c) as [[[] [w m| |]]|]; try (by exists k).
  rewrite drop_umsg_log. exists (k ++ [EvDrop (um_id m) DClosed]). autorewrite with fr_log. prj.
  split; [by rewrite <-app_assoc|]. intros e [?|?%elem_of_list_singleton]%elem_of_app; eauto.
Qed.
Lemma rx_shutdown_evs s : ∃ k, log (exec_rx_shutdown s) = k ++ log s ∧ ∀ e, e ∈ k → ∃ m y, e = EvDrop m y ∧ (y = DCleared ∨ y = DClosed).
Proof.
  unfold exec_rx_shutdown. cbv zeta. autorewrite with fr_log. prj.
  match goal with |- context [fold_left close_handle1 ?l ?x] => destruct (close_handles1_evs l x) as (k1 & H1 & H2) end.
  rewrite H1. clear H1. prj.
  match goal with |- context [drop_umsgs ?y ?l ?x] => destruct (drop_umsgs_evs y l x) as (k2 & H3 & H4) end.
  rewrite H3. clear H3. prj. exists (k1 ++ k2). split.
  - rewrite <-app_assoc. do 2 f_equal. prj. by repeat (progress (prj; autorewrite with fr_log)).
  - intros e [He|He]%elem_of_app; [destruct (H2 _ He) as [m ->]|destruct (H4 _ He) as [m ->]]; eauto.
Qed.
Lemma free_evs s : ∃ k, log (free_chan s) = k ++ log s ∧ ∀ e, e ∈ k → ∃ m y, e = EvDrop m y ∧ (y = DFreed ∨ y = DClosed).
Proof.
  unfold free_chan. cbv zeta. prj.
  match goal with |- context [drop_umsgs ?y ?l ?x] => destruct (drop_umsgs_evs y l x) as (k2 & H3 & H4) end.
  rewrite H3. clear H3. prj. autorewrite with fr_log. prj. autorewrite with fr_log. prj.
  match goal with |- context [fold_left close_handle1 ?l ?x] => destruct (close_handles1_evs l x) as (k1 & H1 & H2) end.
  rewrite H1. exists (k2 ++ k1). split; [by rewrite <-app_assoc|].
  intros e [He|He]%elem_of_app; [destruct (H4 _ He) as [m ->]|destruct (H2 _ He) as [m ->]]; eauto 10.
Qed.

Lemma exec_evs u s s1 new : exec u s = (s1, new) → ∃ k, log s1 = k ++ log s ∧ ∀ e, e ∈ k → ev_src u e.
Proof.
  intros E.
  assert (∀ x, log x = log s → ∃ k, log x = k ++ log s ∧ ∀ e, e ∈ k → ev_src u e) as H0.
  { intros x ->. exists []. split; [done|]. by intros e ?%elem_of_nil. }
  assert (∀ x e, log x = e :: log s → ev_src u e → ∃ k, log x = k ++ log s ∧ ∀ e, e ∈ k → ev_src u e) as H1.
  { intros x e -> He. exists [e]. split; [done|]. by intros ? ->%elem_of_list_singleton. }
  exec_cases u E;
    try (apply H0; by repeat (progress (prj; autorewrite with fr_log)));
    try (eapply H1; [by repeat (progress (prj; autorewrite with fr_log))|cbn; eauto 10]).
  all: try match goal with |- context [exec_rx_shutdown ?x] => destruct (rx_shutdown_evs x) as (k & Hk & He); exists k; split; [done|]; intros e He'; destruct (He _ He') as (m & y & -> & ?); by left end.
  all: match type of H0 with context [ev_src ?u _] =>
         assert (∀ x k, log x = k ++ log s → Forall (ev_src u) k → ∃ k, log x = k ++ log s ∧ ∀ e, e ∈ k → ev_src u e) as H2
           by (intros x k Hx Hk; exists k; split; [done|by apply Forall_forall]) end.
  all: try match goal with |- context [pop_unicast ?s] => destruct (pop_unicast_spec s) as (x & _ & _ & Hx); destruct x; cbn [acc_ev app] in Hx end.
  all: try match goal with |- context [pop_broadcast ?b ?s] => destruct (pop_broadcast_log b s) as ([[m' l']|] & Hx); cbn [bq_evs app] in Hx end.


  all: first [eapply (H2 _ [_; _]); [repeat (progress (prj; autorewrite with fr_log)); try (rewrite Hx); done|rewrite ?Forall_cons, Forall_nil; split_and!; cbn; eauto 10]
          |eapply (H2 _ [_]); [repeat (progress (prj; autorewrite with fr_log)); try (rewrite Hx); done|rewrite ?Forall_cons, Forall_nil; split_and!; cbn; eauto 10]
          |by apply H0].
Qed.

(** Events of API calls. *)
Definition ev_api (o : op) (e : ev) : Prop :=
  match e with
  | EvPrio _ _ => (∃ a, o = ASend a) ∨ ∃ f n, o = APriority f n
  | EvHandle r _ => o = ARun r
  | EvDone _ v => ∃ r, o = AFinish r v
  | EvJoin j _ => o = APollJoin j
  | EvUpgrade a _ => o = AUpgrade a
  | EvUserPanic f => ∃ n, o = APriority f n
  | _ => False
  end.
Lemma api_evs o s : log (api o s) = log s ∨ ∃ e, log (api o s) = e :: log s ∧ ev_api o e.
Proof.
  destruct o; cbn [api]; repeat (dgoal; try (by left)); cbv zeta; unfold add_addr; repeat dgoal;
    repeat (progress (prj; autorewrite with fr_log)); first [by left|right; eexists; split; [done|cbn; eauto]].
Qed.

(** An event that only API calls cause. *)
Lemma no_src u e : (∀ u, ¬ ev_src u e) → ev_src u e → False.
Proof. intros H. apply H. Qed.
