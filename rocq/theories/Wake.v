(** Wakers that have been woken stay woken. *)
From stdpp Require Import base numbers list list_numbers.
From Coq Require Import Lia.
From Verif Require Import Prio Heap State Model HeapProofs Frame Lib Effects.

Definition wx (s s' : state) : Prop := ∃ k, wakes s' = k ++ wakes s.
Lemma wx_in s s' w : wx s s' → w ∈ wakes s → w ∈ wakes s'.
Proof. intros [k ->] H. apply elem_of_app. by right. Qed.
Lemma wx_eq s s' : wakes s' = wakes s → wx s s'.
Proof. intros H. exists []. by rewrite H. Qed.
Lemma wx_trans s1 s2 s3 : wx s1 s2 → wx s2 s3 → wx s1 s3.
Proof. intros [k Hk] [l Hl]. exists (l ++ k). by rewrite Hl, Hk, app_assoc. Qed.
Lemma wx_l s s' x : wakes s = wakes s' → wx s' x → wx s x.
Proof. unfold wx. by intros ->. Qed.
Lemma wx_r s s' x : wakes s = wakes s' → wx x s' → wx x s.
Proof. unfold wx. by intros ->. Qed.
Lemma wx_fold {A} (f : state → A → state) l s : (∀ s a, wx s (f s a)) → wx s (fold_left f l s).
Proof.
  intros H. revert s; induction l as [|a l IH]; intros s; cbn; [by apply wx_eq|]. eapply wx_trans; [apply H|apply IH].
Qed.
Lemma wake_wx w s : wx s (wake w s).
Proof. destruct w as [k|]; [by exists [k]|by apply wx_eq]. Qed.
Lemma wake_in w s : w ∈ wakes (wake (Some w) s).
Proof. by left. Qed.
Lemma close_reply_wx m s : wx s (close_reply m s).
Proof.
  unfold close_reply. destruct (reps s !! m) as [[rx []]|]; try by apply wx_eq. eapply wx_l; [|apply wake_wx]. done.
Qed.
Lemma drop_umsg_wx y m s : wx s (drop_umsg y m s).
Proof. unfold drop_umsg. eapply wx_r; [|apply close_reply_wx]. done. Qed.
Lemma drop_umsgs_wx y l s : wx s (drop_umsgs y l s).
Proof. apply wx_fold. intros. apply drop_umsg_wx. Qed.
Lemma close_handle1_wx s c : wx s (close_handle1 s c).
Proof.
  unfold close_handle1. destruct (cells1 s !! c) as [[[] []]|]; try by apply wx_eq.
  eapply wx_trans; [|apply drop_umsg_wx]. eapply wx_l; [|apply wake_wx]. done.
Qed.
Lemma close_handleA_wx s c : wx s (close_handleA s c).
Proof.
  unfold close_handleA. destruct (cellsA s !! c) as [[[] []]|]; try by apply wx_eq. eapply wx_l; [|apply wake_wx]. done.
Qed.
Lemma close_one_wx s c : wx s (close_one s c).
Proof.
  unfold close_one. destruct (ones s !! c) as [[? []]|]; try by apply wx_eq. eapply wx_l; [|apply wake_wx]. done.
Qed.
Lemma one_send_wx o c s : wx s (fst (one_send o c s)).
Proof.
  unfold one_send. destruct (ones s !! o) as [[[] []]|]; try by apply wx_eq. eapply wx_l; [|apply wake_wx]. done.
Qed.
Lemma fulfill_wx ws m s : wx s (fst (fulfill ws m s)).
Proof.
  revert s; induction ws as [|o ws IH]; intros s; cbn; [by apply wx_eq|].
  pose proof (one_send_wx o (CNewMsg m) s) as H. destruct (one_send _ _ _) as [s' []]; cbn [fst] in *.
  - eapply wx_r; [|exact H]. done.
  - eapply wx_trans; [exact H|apply IH].
Qed.
Lemma try_fulfill_wx m s : wx s (fst (try_fulfill_receiver m s)).
Proof. apply fulfill_wx. Qed.
Lemma take_waiting1_wx s : wx s (fst (take_waiting1 s)).
Proof.
  unfold take_waiting1. destruct (try_take _ _ _ _) as [[cs ws] [[m w]|]]; cbn [fst]; [|by apply wx_eq].
  eapply wx_trans; [|apply wx_eq; done]. eapply wx_l; [|apply wake_wx]. done.
Qed.
Lemma take_waitingA_wx s : wx s (fst (take_waitingA s)).
Proof.
  unfold take_waitingA. destruct (try_take _ _ _ _) as [[cs ws] [[m w]|]]; cbn [fst]; [|by apply wx_eq].
  eapply wx_l; [|apply wake_wx]. done.
Qed.
Lemma pop_unicast_wx s : wx s (fst (pop_unicast s)).
Proof.
  unfold pop_unicast. destruct (heap_pop _ _) as [[m h]|]; [|by apply wx_eq]. cbv zeta. case_match; [by apply wx_eq|].
  pose proof (take_waiting1_wx (set_uq h s)) as H'. destruct (take_waiting1 _) as [s2 [m2|]]; cbn [fst] in *.
  - eapply wx_trans; [exact H'|]. apply wx_eq. by autorewrite with fr_wakes.
  - exact H'.
Qed.
Lemma send_broadcast_wx m s : wx s (send_broadcast m s).
Proof.
  unfold send_broadcast. cbv zeta. eapply wx_r; [prj; reflexivity|].
  eapply wx_trans; [|apply wx_fold; intros; apply one_send_wx]. apply wx_eq. prj. by autorewrite with fr_wakes.
Qed.
Lemma pop_broadcast_wx b s : wx s (fst (pop_broadcast b s)).
Proof.
  unfold pop_broadcast. destruct (heap_pop _ _) as [[m h]|]; [|by apply wx_eq]. cbv zeta.
  case_match; cbn [fst]; [apply wx_eq; prj; by autorewrite with fr_wakes|].
  match goal with |- context [take_waitingA ?x] => pose proof (take_waitingA_wx x) as H'; destruct (take_waitingA x) as [s3 [m2|]] end; cbn [fst] in *.
  - eapply wx_trans; [|apply send_broadcast_wx]. eapply wx_l; [|exact H']. prj. by autorewrite with fr_wakes.
  - eapply wx_l; [|exact H']. prj. by autorewrite with fr_wakes.
Qed.
Lemma listeners_wx l s : wx s (fold_left (λ s l, if ls_notified l then s else wake (ls_wk l) s) l s).
Proof. apply wx_fold. intros s' a. case_match; [by apply wx_eq|apply wake_wx]. Qed.
Lemma rx_shutdown_wx s : wx s (exec_rx_shutdown s).
Proof.
  unfold exec_rx_shutdown. cbv zeta.
  eapply wx_trans; [|apply wx_fold, close_handleA_wx]. eapply wx_r; [prj; reflexivity|].
  eapply wx_trans; [|apply wx_fold, close_handle1_wx]. eapply wx_r; [prj; reflexivity|].
  eapply wx_trans; [|apply drop_umsgs_wx]. eapply wx_r; [prj; reflexivity|]. apply listeners_wx.
Qed.
Lemma free_wx s : wx s (free_chan s).
Proof.
  unfold free_chan. cbv zeta. eapply wx_r; [prj; reflexivity|].
  eapply wx_trans; [|apply drop_umsgs_wx]. eapply wx_r; [prj; reflexivity|].
  eapply wx_trans; [|apply wx_fold, close_one_wx]. eapply wx_r; [prj; reflexivity|].
  eapply wx_trans; [|apply wx_fold, close_handleA_wx]. eapply wx_r; [prj; reflexivity|].
  eapply wx_l; [|apply wx_fold, close_handle1_wx]. done.
Qed.
Lemma api_wakes o s : wakes (api o s) = wakes s.
Proof.
  destruct o; cbn [api]; repeat (dgoal; try done); cbv zeta; unfold add_addr; repeat dgoal;
    by repeat (progress (prj; autorewrite with fr_wakes)).
Qed.
Lemma exec_wx u s s1 new : exec u s = (s1, new) → wx s s1.
Proof.
  intros E. exec_cases u E; try (apply wx_eq; by repeat (progress (prj; autorewrite with fr_wakes)));
    try first [apply one_send_wx|apply rx_shutdown_wx|apply drop_umsg_wx|apply send_broadcast_wx|apply pop_broadcast_wx|apply try_fulfill_wx].
  all: try (eapply wx_r; [repeat (progress (prj; autorewrite with fr_wakes)); reflexivity|];
    first [apply try_fulfill_wx|apply send_broadcast_wx|apply pop_broadcast_wx|apply pop_unicast_wx]).
  all: try (eapply wx_l; [|apply send_broadcast_wx]; done).
  all: try (eapply wx_l; [|apply wake_wx]; done).
Qed.
Lemma step_wx s o : wx s (step s o).
Proof.
  unfold step.
  assert (∀ x, wx s x → wx s (collect x)) as H.
  { intros x Hx. unfold collect. case_match; [done|]. eapply wx_trans; [exact Hx|apply free_wx]. }
  destruct o; apply H; try (apply wx_eq, api_wakes).
  unfold do_step. destruct (thr s !! t) as [[|u rest]|]; try by apply wx_eq.
  destruct (exec u s) as [s1 new] eqn:E. eapply wx_r; [prj; reflexivity|]. by eapply exec_wx.
Qed.
Lemma run_wx s l : wx s (run s l).
Proof. apply wx_fold. apply step_wx. Qed.
