(** Which message is in which cell, and how a cell ends. *)
From stdpp Require Import base numbers list list_numbers.
From Coq Require Import Lia.
From Verif Require Import Prio Heap State Model HeapProofs Frame Lib InvBusy Effects InvMsg InvFut InvCell WaitSpec InvWs.

(** ** The message of a cell *)

(** Messages that found the mailbox full, in chronological order: the [c]-th one got
    cell number [c]. *)
Fixpoint blks (l : list ev) : list nat :=
  match l with [] => [] | EvBlocked m :: l => blks l ++ [m] | _ :: l => blks l end.
Definition blk (s : state) : list nat := blks (log s).

Lemma blks_app l k : blks (l ++ k) = blks k ++ blks l.
Proof.
  induction l as [|e l IH]; simpl; [by rewrite app_nil_r|]. destruct e; try done. by rewrite IH, app_assoc.
Qed.
Lemma blk_eq s s' : log s = log s' → blk s = blk s'.
Proof. unfold blk. by intros ->. Qed.
Lemma blk_drop_umsgs y l s : blk (drop_umsgs y l s) = blk s.
Proof. apply fold_left_proj. intros. unfold blk. by rewrite drop_umsg_log. Qed.
Lemma blk_close_handles1 l s : blk (fold_left close_handle1 l s) = blk s.
Proof.
  apply fold_left_proj. intros s' c. unfold close_handle1, blk. repeat case_match; try done.
  rewrite drop_umsg_log. cbn. by autorewrite with fr_log.
Qed.
Lemma blk_rx_shutdown s : blk (exec_rx_shutdown s) = blk s.
Proof.
  unfold exec_rx_shutdown. cbv zeta. unfold blk. autorewrite with fr_log. prj.
  match goal with |- blks (log (fold_left close_handle1 ?l ?x)) = _ => transitivity (blk x); [apply blk_close_handles1|] end.
  unfold blk. prj. autorewrite with fr_log. prj.
  match goal with |- blks (log (drop_umsgs ?y ?l ?x)) = _ => transitivity (blk x); [apply blk_drop_umsgs|] end.
  unfold blk. prj. by autorewrite with fr_log.
Qed.
Lemma blk_free s : blk (free_chan s) = blk s.
Proof.
  unfold free_chan. cbv zeta. unfold blk. prj.
  match goal with |- blks (log (drop_umsgs ?y ?l ?x)) = _ => transitivity (blk x); [apply blk_drop_umsgs|] end.
  unfold blk. repeat (progress (prj; autorewrite with fr_log)).
  match goal with |- blks (log (fold_left close_handle1 ?l ?x)) = _ => transitivity (blk x); [apply blk_close_handles1|] end.
  done.
Qed.
Lemma blk_pop_unicast s : blk (fst (pop_unicast s)) = blk s.
Proof. destruct (pop_unicast_spec s) as (x & _ & _ & H). unfold blk. rewrite H. by destruct x. Qed.
Lemma blk_pop_broadcast b s : blk (fst (pop_broadcast b s)) = blk s.
Proof. destruct (pop_broadcast_log b s) as [[[m l]|] H]; unfold blk; by rewrite H. Qed.

Lemma blk_drop_umsg y m s : blk (drop_umsg y m s) = blk s.
Proof. unfold blk. by rewrite drop_umsg_log. Qed.

(** The log only grows. *)
Lemma pop_unicast_loge (e : ev → nat) s : Σ e (log s) ≤ Σ e (log (fst (pop_unicast s))).
Proof. destruct (pop_unicast_spec s) as (x & _ & _ & ->). rewrite sum_list_with_app. lia. Qed.
Lemma pop_broadcast_loge (e : ev → nat) b s : Σ e (log s) ≤ Σ e (log (fst (pop_broadcast b s))).
Proof. destruct (pop_broadcast_log b s) as [x ->]. rewrite sum_list_with_app. lia. Qed.
Lemma close_handles1_loge (e : ev → nat) l s : Σ e (log s) ≤ Σ e (log (fold_left close_handle1 l s)).
Proof.
  revert s; induction l as [|c l IH]; intros s; simpl; [done|]. etrans; [|apply IH].
  unfold close_handle1. repeat case_match; try done. rewrite drop_umsg_log. autorewrite with fr_log. cbn. lia.
Qed.
Lemma rx_shutdown_loge (e : ev → nat) s : Σ e (log s) ≤ Σ e (log (exec_rx_shutdown s)).
Proof.
  unfold exec_rx_shutdown. cbv zeta. autorewrite with fr_log. prj. etrans; [|apply close_handles1_loge].
  repeat (progress (prj; autorewrite with fr_log)). rewrite drop_umsgs_log. prj. autorewrite with fr_log. lia.
Qed.
Lemma free_loge (e : ev → nat) s : Σ e (log s) ≤ Σ e (log (free_chan s)).
Proof.
  unfold free_chan. cbv zeta. repeat (progress (prj; autorewrite with fr_log)). rewrite drop_umsgs_log.
  repeat (progress (prj; autorewrite with fr_log)).
  pose proof (close_handles1_loge e (ws1 s) (set_ws1 [] s)). prj. cbn in H. lia.
Qed.

Definition c_msg (x : wcell umsg) : nat := match x with WC true (WActive _ m) => S (um_id m) | _ => 0 end.
Definition c_del {A} (x : wcell A) : nat := match x with WC true WDelivered => 1 | _ => 0 end.
Definition c_clo {A} (x : wcell A) : nat := match x with WC true WClosed => 1 | _ => 0 end.
Definition e_clo (i : nat) (e : ev) : nat := match e with EvDrop m DClosed => isn i m | _ => 0 end.
(** Message of cell [c]. *)
Definition bmsg_of (s : state) (c : nat) : nat := at_ (λ x, x) (blk s) c.

Definition InvBlk (s : state) : Prop :=
  length (blk s) = length (cells1 s) ∧ ∀ c,
  (0 < at_ c_msg (cells1 s) c → at_ c_msg (cells1 s) c = S (bmsg_of s c)) ∧
  (0 < at_ c_del (cells1 s) c → 0 < Σ (e_acc (bmsg_of s c)) (log s)) ∧
  (0 < at_ c_clo (cells1 s) c → 0 < Σ (e_clo (bmsg_of s c)) (log s)).

(** Steps that leave the cells alone. *)
Lemma blk_keep s s' :
  InvBlk s → cells1 s' = cells1 s → blk s' = blk s → (∀ e, Σ e (log s) ≤ Σ e (log s')) → InvBlk s'.
Proof.
  intros (I0 & I) Ec Eb El. split; [by rewrite Ec, Eb|]. intros c. unfold bmsg_of. rewrite Ec, Eb.
  destruct (I c) as (I1 & I2 & I3). unfold bmsg_of in *.
  pose proof (El (e_acc (at_ (λ x, x) (blk s) c))). pose proof (El (e_clo (at_ (λ x, x) (blk s) c))).
  split_and!; intros; [by apply I1|specialize (I2 ltac:(done)); lia|specialize (I3 ltac:(done)); lia].
Qed.
(** Steps that change one cell. *)
Lemma blk_ins s s' c x y :
  InvBlk s → cells1 s !! c = Some x → cells1 s' = <[c := y]> (cells1 s) → blk s' = blk s →
  (∀ e, Σ e (log s) ≤ Σ e (log s')) →
  (c_msg y = 0 ∨ c_msg y = c_msg x) →
  (c_del y = 1 → c_del x = 1 ∨ 0 < Σ (e_acc (bmsg_of s c)) (log s')) →
  (c_clo y = 1 → c_clo x = 1) →
  InvBlk s'.
Proof.
  intros (I0 & I) Hc Ec Eb El Ha Hd Hl. split; [by rewrite Ec, Eb, insert_length|]. intros k.
  unfold bmsg_of in *. rewrite Ec, Eb, !(at_insert _ _ _ _ _ _ Hc).
  pose proof (El (e_acc (at_ (λ x, x) (blk s) k))). pose proof (El (e_clo (at_ (λ x, x) (blk s) k))).
  destruct (I k) as (I1 & I2 & I3).
  destruct (Nat.eqb_spec c k) as [->|].
  2: { split_and!; intros; [by apply I1|specialize (I2 ltac:(done)); lia|specialize (I3 ltac:(done)); lia]. }
  rewrite (at_some _ _ _ _ Hc) in I1; rewrite (at_some _ _ _ _ Hc) in I2; rewrite (at_some _ _ _ _ Hc) in I3.
  split_and!; intros Hp.
  - destruct Ha as [Ha|Ha]; rewrite Ha in *; [lia|by apply I1].
  - destruct Hd as [Hd|Hd]; [destruct y as [[] []]; cbn in *; lia|rewrite Hd in I2; lia|done].
  - rewrite Hl in I3; [lia|destruct y as [[] []]; cbn in *; lia].
Qed.

Lemma pop_unicast_blk s : wf1 s → InvBlk s → InvBlk (fst (pop_unicast s)).
Proof.
  intros W I. destruct (pop_unicast s) as [s' r] eqn:E. cbn [fst].
  pose proof (blk_pop_unicast s) as Hb. rewrite E in Hb. cbn in Hb.
  pose proof (λ e, pop_unicast_loge e s) as He. rewrite E in He. cbn in He.
  destruct (pop_unicast_cases _ _ _ W E) as [_ [(-> & -> & Hu)|(m & h & Hp & -> & [(A & B & C & D & F)|(k & m2 & w & A & B & C & D & F & _)])]].
  - done.
  - by eapply blk_keep.
  - eapply (blk_ins s s' k); eauto.
    + intros _. right. destruct I as [_ I]. destruct (I k) as (I1 & _). rewrite (at_some _ _ _ _ B) in I1. cbn in I1.
      rewrite F. cbn. injection (I1 ltac:(lia)) as <-. unfold isn. rewrite Nat.eqb_refl. lia.
Qed.
Lemma at_fmap {A B} (f : A → B) g l i : at_ g (f <$> l) i = at_ (λ x, g (f x)) l i.
Proof. unfold at_. rewrite list_lookup_fmap. by destruct (l !! i). Qed.
Lemma closed_blk s s' :
  InvBlk s → cells1 s' = close_cell <$> cells1 s → blk s' = blk s → (∀ e, Σ e (log s) ≤ Σ e (log s')) →
  (∀ m, Σ (ccell (is m)) (cells1 s') + Σ (e_clo m) (log s') = Σ (ccell (is m)) (cells1 s) + Σ (e_clo m) (log s)) →
  InvBlk s'.
Proof.
  intros [I0 I] Ec Eb El Em. split; [by rewrite Ec, Eb, fmap_length|]. intros c.
  unfold bmsg_of in *. destruct (I c) as (I1 & I2 & I3). rewrite Eb.
  pose proof (El (e_acc (at_ (λ x, x) (blk s) c))). pose proof (El (e_clo (at_ (λ x, x) (blk s) c))).
  specialize (Em (at_ (λ x, x) (blk s) c)).
  rewrite Ec, !at_fmap. destruct (cells1 s !! c) as [x|] eqn:Hx; ats; cbn in *.
  2: { split_and!; lia. }
  destruct x as [[] [w m| |]]; cbn in *; split_and!; try lia.
  injection (I1 ltac:(lia)) as J1. intros _.
  pose proof (sum_lookup (ccell (is (um_id m))) _ _ _ Hx) as Hs. cbn in Hs. assert (is (um_id m) m = 1) as Hone by (unfold is, isn; by rewrite Nat.eqb_refl).
  assert (Σ (ccell (is (at_ (λ x, x) (blk s) c))) (cells1 s') = 0) as Hz.
  { rewrite Ec. apply sum_zero. intros y (z & -> & _)%elem_of_list_fmap. destruct z as [[] []]; done. }
  rewrite <-J1 in *. lia.
Qed.

Lemma rx_shutdown_blk s : wf1 s → InvBlk s → InvBlk (exec_rx_shutdown s).
Proof.
  intros W I. eapply (closed_blk s); [done|by apply rx_shutdown_cells1|apply blk_rx_shutdown|intros; apply rx_shutdown_loge|].
  intros m. apply rx_shutdown_meas; done.
Qed.
Lemma free_blk s : wf1 s → InvBlk s → InvBlk (free_chan s).
Proof.
  intros W I. eapply (closed_blk s); [done|by apply free_cells1|apply blk_free|intros; apply free_loge|].
  intros m. apply free_meas; done.
Qed.

Lemma InvBlk_eq s s' : cells1 s' = cells1 s → log s' = log s → InvBlk s → InvBlk s'.
Proof. intros Hc Hl I. eapply blk_keep; eauto; [by apply blk_eq|intros; by rewrite Hl]. Qed.

Lemma reach_blk s : reach s → InvBlk s.
Proof.
  revert s. apply reach_inv.
  - intros c. split; [done|]. intros [|i]; cbn; unfold at_; cbn; lia.
  - intros s o Hr I. eapply (blk_keep s); [done|..].
    + destruct o; cbn [api]; repeat (dgoal; try done); cbv zeta; unfold add_addr; repeat dgoal;
      repeat (progress (prj; autorewrite with fr_cells1)); done.
    + destruct o; cbn [api]; repeat (dgoal; try done); cbv zeta; unfold add_addr, blk; repeat dgoal;
      repeat (progress (prj; autorewrite with fr_log)); done.
    + intros e. destruct o; cbn [api]; repeat (dgoal; try done); cbv zeta; unfold add_addr; repeat dgoal;
      repeat (progress (prj; autorewrite with fr_log)); simpl; lia.
  - intros s t u rest s1 new Hr I Ht E Hthr. apply (InvBlk_eq s1); [done..|].
    pose proof (reach_ws s Hr) as (W1 & _). clear Ht Hthr.
    exec_cases u E.
    all: try (by apply rx_shutdown_blk).
    all: try (by eapply (blk_keep s); [done|by repeat (progress (prj; autorewrite with fr_cells1))|
       by unfold blk; repeat (progress (prj; autorewrite with fr_log))|
       by intros; repeat (progress (prj; autorewrite with fr_log)); simpl; lia]).
    all: try match goal with |- context [pop_unicast ?x] => 
      by eapply (blk_keep (fst (pop_unicast x))); [by apply pop_unicast_blk|
         by repeat (progress (prj; autorewrite with fr_cells1))|
         by unfold blk; repeat (progress (prj; autorewrite with fr_log))|
         by intros; repeat (progress (prj; autorewrite with fr_log)); simpl; lia] end.
    all: try match goal with |- context [pop_broadcast ?b ?x] => 
      by eapply (blk_keep x); [done|by repeat (progress (prj; autorewrite with fr_cells1))|
         by (etrans; [|apply (blk_pop_broadcast b)]); unfold blk; repeat (progress (prj; autorewrite with fr_log))|
         by intros e0; (etrans; [apply (pop_broadcast_loge e0 b)|]); repeat (progress (prj; autorewrite with fr_log)); simpl; lia] end.
    all: try (by eapply (blk_ins s); [done|eassumption|by repeat (progress (prj; autorewrite with fr_cells1))|
       by unfold blk; repeat (progress (prj; autorewrite with fr_log))|
       by intros; repeat (progress (prj; autorewrite with fr_log)); simpl; lia|
       by repeat match goal with b : bool |- _ => destruct b end; cbn; auto..]).
    destruct I as [I0 I]. split; unfold bmsg_of, blk; prj; autorewrite with fr_cells1 fr_log; cbn [blks]; fold (blk s).
    + by rewrite !app_length, I0.
    + intros c. rewrite !at_snoc, I0. destruct (I c) as (J1 & J2 & J3). destruct (Nat.eqb_spec (length (cells1 s)) c); cbn.
      * split_and!; lia.
      * exact (conj J1 (conj J2 J3)).
  - intros s Hr I Ho. apply free_blk; [by apply reach_ws|done].
Qed.
