(** What only grows: the history, the numbers of objects, and what a future sends. *)
From stdpp Require Import base numbers list list_numbers.
From Coq Require Import Lia.
From Verif Require Import Prio Heap State Model HeapProofs Frame Lib InvBusy Effects InvMsg InvFut InvBlk.

(** [s'] has the history of [s] plus some more events. *)
Definition logx (s s' : state) : Prop := ∃ k, log s' = k ++ log s.
Lemma logx_refl s : logx s s.
Proof. by exists []. Qed.
Lemma logx_trans s1 s2 s3 : logx s1 s2 → logx s2 s3 → logx s1 s3.
Proof. intros [k Hk] [l Hl]. exists (l ++ k). by rewrite Hl, Hk, app_assoc. Qed.
Lemma logx_eq s s' k : log s' = k ++ log s → logx s s'.
Proof. by exists k. Qed.
Lemma logx_in s s' e : logx s s' → e ∈ log s → e ∈ log s'.
Proof. intros [k ->] H. apply elem_of_app. by right. Qed.
Lemma logx_sum (g : ev → nat) s s' : logx s s' → Σ g (log s) ≤ Σ g (log s').
Proof. intros [k ->]. rewrite sum_list_with_app. lia. Qed.

Lemma drop_umsgs_logx y l s : logx s (drop_umsgs y l s).
Proof.
  unfold drop_umsgs. revert s; induction l as [|m l IH]; intros s; simpl; [apply logx_refl|].
  eapply logx_trans; [|apply IH]. eapply (logx_eq _ _ [_]). by rewrite drop_umsg_log.
Qed.
Lemma close_handles1_logx l s : logx s (fold_left close_handle1 l s).
Proof.
  revert s; induction l as [|c l IH]; intros s; simpl; [apply logx_refl|]. eapply logx_trans; [|apply IH].
  unfold close_handle1. repeat case_match; try apply logx_refl.
  eapply (logx_eq _ _ [_]). rewrite drop_umsg_log. autorewrite with fr_log. done.
Qed.
Lemma logx_l s s' x : log s = log s' → logx s' x → logx s x.
Proof. intros H [k Hk]. exists k. by rewrite H. Qed.
Lemma logx_r s s' x : log s = log s' → logx x s' → logx x s.
Proof. intros H [k Hk]. exists k. by rewrite H. Qed.
Lemma rx_shutdown_logx s : logx s (exec_rx_shutdown s).
Proof.
  unfold exec_rx_shutdown. cbv zeta. eapply logx_r; [by autorewrite with fr_log|].
  eapply logx_r; [prj; reflexivity|]. eapply logx_trans; [|apply close_handles1_logx].
  eapply logx_r; [prj; reflexivity|]. eapply logx_trans; [|apply drop_umsgs_logx].
  exists []. prj. by autorewrite with fr_log.
Qed.
Lemma free_logx s : logx s (free_chan s).
Proof.
  unfold free_chan. cbv zeta. eapply logx_r; [prj; reflexivity|]. eapply logx_trans; [|apply drop_umsgs_logx].
  eapply logx_r; [repeat (progress (prj; autorewrite with fr_log)); reflexivity|].
  eapply logx_l; [|apply close_handles1_logx]. done.
Qed.
Lemma pop_unicast_logx s : logx s (fst (pop_unicast s)).
Proof. destruct (pop_unicast_spec s) as (x & _ & _ & H). eapply logx_eq, H. Qed.
Lemma pop_broadcast_logx b s : logx s (fst (pop_broadcast b s)).
Proof. destruct (pop_broadcast_log b s) as [x H]. eapply logx_eq, H. Qed.

Lemma api_logx o s : logx s (api o s).
Proof.
  destruct o; cbn [api]; repeat (dgoal; try apply logx_refl); cbv zeta; unfold add_addr; repeat dgoal;
  first [exists []; repeat (progress (prj; autorewrite with fr_log)); reflexivity
        |eexists [_]; repeat (progress (prj; autorewrite with fr_log)); reflexivity].
Qed.
Lemma exec_logx u s s1 new : exec u s = (s1, new) → logx s s1.
Proof.
  intros E. exec_cases u E.
  all: try (by exists []; repeat (progress (prj; autorewrite with fr_log))).
  all: try (by eexists [_]; repeat (progress (prj; autorewrite with fr_log))).
  all: try apply rx_shutdown_logx.
  all: try (by eexists [_; _]; repeat (progress (prj; autorewrite with fr_log))).
  all: try match goal with |- context [pop_unicast ?x] =>
    eapply logx_trans; [apply (pop_unicast_logx x)|]; first [by exists []; repeat (progress (prj; autorewrite with fr_log))
          |by eexists [_]; repeat (progress (prj; autorewrite with fr_log))
          |by eexists [_;_]; repeat (progress (prj; autorewrite with fr_log))] end.
  all: try match goal with |- context [pop_broadcast ?b ?x] =>
    eapply logx_trans; [apply (pop_broadcast_logx b x)|];
    first [by exists []; repeat (progress (prj; autorewrite with fr_log))
          |by eexists [_]; repeat (progress (prj; autorewrite with fr_log))
          |by eexists [_;_]; repeat (progress (prj; autorewrite with fr_log))] end.
Qed.

Lemma step_logx s o : logx s (step s o).
Proof.
  unfold step. set (x := match o with Step t => do_step t s | _ => api o s end).
  assert (logx s x) as H.
  { subst x. pose proof (api_logx o s) as Ha. destruct o; try exact Ha.
    unfold do_step. destruct (thr s !! t) as [[|u rest]|]; try apply logx_refl.
    destruct (exec u s) as [s1 new] eqn:E. eapply logx_r; [|by eapply exec_logx]. done. }
  unfold collect. destruct (chan_owned x); [done|]. eapply logx_trans; [done|apply free_logx].
Qed.
Lemma run_logx s l : logx s (run s l).
Proof.
  revert s; induction l as [|o l IH]; intros s; simpl; [apply logx_refl|].
  eapply logx_trans; [apply step_logx|apply IH].
Qed.

(** ** Futures stay, and keep their message until it is accepted *)
Lemma exec_sfs_len u s s1 new : exec u s = (s1, new) → length (sfs s1) = length (sfs s).
Proof.
  intros E. exec_cases u E; repeat (progress (prj; autorewrite with fr_sfs)); rewrite ?alter_length, ?insert_length; done.
Qed.
Lemma api_sfs_len o s : length (sfs s) ≤ length (sfs (api o s)).
Proof.
  destruct o; cbn [api]; repeat (dgoal; try done); cbv zeta; unfold add_addr; repeat dgoal;
    repeat (progress (prj; autorewrite with fr_sfs)); rewrite ?app_length, ?insert_length; cbn; lia.
Qed.
Lemma exec_fm u s s1 new f m : exec u s = (s1, new) → at_ fm (sfs s1) f = S m → at_ fm (sfs s) f = S m.
Proof.
  intros E. exec_cases u E; repeat (progress (prj; autorewrite with fr_sfs)); try done; sums; case_eqb; subst; ats; cbn; done.
Qed.
Lemma api_fm o s f m :
  at_ fm (sfs (api o s)) f = S m → at_ fm (sfs s) f = S m ∨ f = length (sfs s).
Proof.
  destruct o; cbn [api]; repeat (dgoal; try by left); cbv zeta; unfold add_addr; repeat dgoal;
    repeat (progress (prj; autorewrite with fr_sfs)); try (by left); sums; case_eqb; subst; ats; cbn; auto.
Qed.

(** Drops that have happened or are under way. *)
Definition ndrop (d : why → nat) (m : nat) (s : state) : nat := msum (g_drop d m) s + Σ (e_drop d m) (log s).
Lemma api_ndrop d m o s : ndrop d m s ≤ ndrop d m (api o s).
Proof.
  unfold ndrop, msum. destruct o; cbn [api]; repeat (dgoal; try done); cbv zeta; unfold add_addr; repeat dgoal;
    repeat (progress (prj; autorewrite with fr_thr fr_log)); sums; cbn; lia.
Qed.
Lemma exec_ndrop d m t u rest new s s1 :
  thr s !! t = Some (u :: rest) → exec u s = (s1, new) → thr s1 = thr s →
  ndrop d m s ≤ ndrop d m (set_thr (<[t:=new ++ rest]> (thr s1)) s1).
Proof.
  intros Ht E Hthr. unfold ndrop. prj.
  pose proof (msum_step (g_drop d m) s t u rest new s1 Ht Hthr) as HM.
  pose proof (logx_sum (e_drop d m) _ _ (exec_logx _ _ _ _ E)).
  assert ((∃ k y, u = UDropMsg k y) ∨ g_drop d m u = 0) as [(k & y & ->)|] by (destruct u; cbn; eauto); [|lia].
  cbn in E. injection E as <- <-. cbn in HM. rewrite drop_umsg_log. cbn. unfold is in *. lia.
Qed.
Lemma free_ndrop d m s : ndrop d m s ≤ ndrop d m (free_chan s).
Proof.
  unfold ndrop. rewrite (msum_eq (g_drop d m) s (free_chan s)) by (autorewrite with fr_thr; done).
  pose proof (logx_sum (e_drop d m) _ _ (free_logx s)). lia.
Qed.
