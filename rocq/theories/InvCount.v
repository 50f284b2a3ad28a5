(** Reference counts are exact. *)
From stdpp Require Import base numbers list list_numbers.
From Coq Require Import Lia.
From Verif Require Import Prio Heap State Model Frame Lib InvBusy.

(** ** Strong senders *)
Definition g_tx (u : micro) : nat :=
  match u with
  | UTxDec => 1
  | USendLd1 _ _ k | USendLd2 _ _ k | USendLock _ _ k => if k then 1 else 0
  | _ => 0
  end.
Definition a_tx (a : addr) : nat := if ad_live a then if ad_strong a then 1 else 0 else 0.
Definition f_tx (f : sfut) : nat :=
  match sf_st f with SNew _ true => 1 | _ => 0 end.

Definition InvTx (s : state) : Prop :=
  txc s = Σ a_tx (addrs s) + Σ f_tx (sfs s) + msum g_tx s.

Lemma reach_tx s : reach s → InvTx s.
Proof.
  revert s. apply reach_inv; unfold InvTx.
  - done.
  - intros s o Hr I. do_api o ltac:(autorewrite with fr_txc fr_addrs fr_sfs).
  - intros s t u rest s1 new Hr I Ht E Hthr.
    pose proof (msum_step g_tx s t u rest new s1 Ht Hthr) as HM.
    pose proof (msum_head g_tx s t u rest Ht) as HH.
    revert HM. generalize (msum g_tx (set_thr (<[t:=new ++ rest]> (thr s1)) s1)). intros n HM.
    prj. clear Hthr.
    assert (∀ f, g_sf f u = 1 → at_ f_tx (sfs s) f = 0) as Hb.
    { intros f Hf. destruct (busyF_at _ _ _ _ _ Hr Ht Hf) as (sf & H1 & H2).
      rewrite (at_some _ _ _ _ H1). unfold f_tx. by rewrite H2. }
    do_exec u E HM ltac:(autorewrite with fr_txc fr_addrs fr_sfs).
    all: try (fin; done).
    all: tokb Hb g_sf.
    all: fin.
  - intros s Hr I Ho. rewrite (msum_eq _ s) by (autorewrite with fr_thr; done).
    autorewrite with fr_txc fr_addrs fr_sfs. apply I.
Qed.

(** ** Receivers *)
Definition g_rx (u : micro) : nat :=
  match u with URxDec | UCloneReg => 1 | _ => 0 end.
Definition h_rx (h : holder) : nat := match h_st h with HGone => 0 | _ => 1 end.

Definition InvRx (s : state) : Prop := rxc s = Σ h_rx (hols s) + msum g_rx s.

Lemma reach_rx s : reach s → InvRx s.
Proof.
  revert s. apply reach_inv; unfold InvRx.
  - done.
  - intros s o Hr I. do_api o ltac:(autorewrite with fr_rxc fr_hols).
  - intros s t u rest s1 new Hr I Ht E Hthr.
    pose proof (msum_step g_rx s t u rest new s1 Ht Hthr) as HM.
    pose proof (msum_head g_rx s t u rest Ht) as HH.
    revert HM. generalize (msum g_rx (set_thr (<[t:=new ++ rest]> (thr s1)) s1)). intros n HM.
    prj. clear Hthr.
    assert (∀ f, g_rf f u = 1 → at_ h_rx (hols s) f = 1) as Hb.
    { intros f Hf. destruct (busyR_at _ _ _ _ _ Hr Ht Hf) as (sf & H1 & H2).
      rewrite (at_some _ _ _ _ H1). unfold h_rx. by rewrite H2. }
    do_exec u E HM ltac:(autorewrite with fr_rxc fr_hols).
    all: try (fin; done).
    all: tokb Hb g_rf.
    all: fin.
  - intros s Hr I Ho. rewrite (msum_eq _ s) by (autorewrite with fr_thr; done).
    autorewrite with fr_rxc fr_hols. apply I.
Qed.

(** ** Owners of a broadcast queue *)
Definition g_bq (b : nat) (u : micro) : nat :=
  match u with UBqRel c => if c =? b then 1 else 0 | _ => 0 end.
Definition h_own (b : nat) (h : holder) : nat :=
  match h_st h with HGone => 0 | _ => if h_bq h =? b then 1 else 0 end.

Definition InvBq (s : state) : Prop :=
  ∀ b, at_ bq_refs (bqueues s) b = Σ (h_own b) (hols s) + msum (g_bq b) s.

Lemma bqueues_bq_put b h s :
  bqueues (bq_put b h s) = alter (λ q, BQ (bq_refs q) h) b (bqueues s).
Proof.
  unfold bq_put. destruct (bqueues s !! b) as [q|] eqn:E.
  - cbn. apply list_eq. intros i. destruct (decide (i = b)) as [->|].
    + rewrite list_lookup_alter, E, list_lookup_insert; [done|by eapply lookup_lt_Some].
    + by rewrite list_lookup_alter_ne, list_lookup_insert_ne.
  - apply list_eq. intros i. destruct (decide (i = b)) as [->|].
    + by rewrite list_lookup_alter, E.
    + by rewrite list_lookup_alter_ne.
Qed.

(** Only [UBqRel], [UCloneReg] and [next] change the number of owners. *)
Definition refs (s : state) : list nat := map bq_refs (bqueues s).
Lemma at_refs s b : at_ bq_refs (bqueues s) b = at_ id (refs s) b.
Proof. unfold at_, refs. rewrite list_lookup_fmap. by destruct (bqueues s !! b). Qed.
Lemma bq_put_refs b h s : refs (bq_put b h s) = refs s.
Proof.
  unfold refs. rewrite bqueues_bq_put. apply list_eq. intros i. rewrite !list_lookup_fmap.
  destruct (decide (i = b)) as [->|].
  - rewrite list_lookup_alter. by destruct (bqueues s !! b).
  - by rewrite list_lookup_alter_ne.
Qed.
Lemma bq_puts_refs m l s :
  refs (fold_left (λ s b, bq_put b (heap_push bm_prio m (bq_get s b)) s) l s) = refs s.
Proof. apply fold_left_proj. intros. apply bq_put_refs. Qed.
Lemma refs_eq s s' : bqueues s' = bqueues s → refs s' = refs s.
Proof. unfold refs. by intros ->. Qed.
Lemma send_broadcast_refs m s : refs (send_broadcast m s) = refs s.
Proof.
  unfold send_broadcast. cbv zeta. unfold refs.
  repeat (progress (prj; autorewrite with fr_bqueues)). apply bq_puts_refs.
Qed.
Lemma pop_broadcast_refs b s : refs (fst (pop_broadcast b s)) = refs s.
Proof.
  unfold pop_broadcast. destruct (heap_pop _ _) as [[m h]|]; [|done]. cbv zeta.
  case_match; cbn [fst].
  - rewrite (refs_eq (bq_put b h s)); [apply bq_put_refs|done].
  - match goal with |- context [take_waitingA ?x] => dpair (take_waitingA x) end.
    destruct r1; cbn [fst].
    + rewrite send_broadcast_refs, (refs_eq (bq_put b h s)); [apply bq_put_refs|].
      by autorewrite with fr_bqueues.
    + rewrite (refs_eq (bq_put b h s)); [apply bq_put_refs|].
      by autorewrite with fr_bqueues.
Qed.

Lemma reach_bq s : reach s → InvBq s.
Proof.
  revert s. apply reach_inv; unfold InvBq.
  - intros c [|[|b]]; done.
  - intros s o Hr I b. specialize (I b). do_api o ltac:(autorewrite with fr_bqueues fr_hols).
  - intros s t u rest s1 new Hr I Ht E Hthr b. pose proof (I b) as Ib.
    pose proof (msum_step (g_bq b) s t u rest new s1 Ht Hthr) as HM.
    pose proof (msum_head (g_bq b) s t u rest Ht) as HH.
    revert HM. generalize (msum (g_bq b) (set_thr (<[t:=new ++ rest]> (thr s1)) s1)). intros n HM.
    prj. clear Hthr.
    assert (∀ f, g_rf f u = 1 →
      at_ (h_own b) (hols s) f = at_ (λ h, if h_bq h =? b then 1 else 0) (hols s) f) as Hb.
    { intros f Hf. destruct (busyR_at _ _ _ _ _ Hr Ht Hf) as (sf & H1 & H2).
      rewrite !(at_some _ _ _ _ H1). unfold h_own. by rewrite H2. }
    do_exec u E HM ltac:(autorewrite with fr_bqueues fr_hols).
    all: rewrite ?at_refs, ?send_broadcast_refs, ?pop_broadcast_refs, <-?at_refs.
    all: try (fin; done).
    all: tokb Hb g_rf; fin.
    all: try (rewrite at_ge in Ib by lia; lia).
    all: clear Hb; case_eqb; subst; try done; lia.
  - intros s Hr I Ho b. rewrite (msum_eq _ s) by (autorewrite with fr_thr; done).
    autorewrite with fr_bqueues fr_hols. apply I.
Qed.
