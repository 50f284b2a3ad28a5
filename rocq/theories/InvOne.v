(** One-shot channels between waiting receive futures and the channel: who holds the
    two halves. *)
From stdpp Require Import base numbers list list_numbers.
From Coq Require Import Lia.
From Verif Require Import Prio Heap State Model HeapProofs Frame Lib InvBusy InvCount Effects InvMsg.

(** ** A cancellation is followed by the drop of the receiving half *)
Definition g_can (o : nat) (u : micro) : nat := match u with UCancel k => isn o k | _ => 0 end.
Definition g_od (o : nat) (u : micro) : nat := match u with UOneDrop k => isn o k | _ => 0 end.
Fixpoint wfl (l : list micro) : Prop :=
  match l with
  | [] => True
  | UCancel o :: l => 1 ≤ Σ (g_od o) l ∧ wfl l
  | _ :: l => wfl l
  end.
Lemma wfl_tail u l : wfl (u :: l) → wfl l.
Proof. destruct u; simpl; tauto. Qed.
Definition is_can (u : micro) : nat := match u with UCancel _ => 1 | _ => 0 end.
Lemma wfl_app l k : Σ is_can l = 0 → wfl k → wfl (l ++ k).
Proof. induction l as [|u l IH]; simpl; [done|]. intros H Hk. destruct u; simpl in *; try lia; apply IH; done. Qed.
Lemma wfl_zero o l : wfl l → Σ (g_od o) l = 0 → Σ (g_can o) l = 0.
Proof.
  induction l as [|u l IH]; [done|]. intros H H2. pose proof (wfl_tail _ _ H) as Ht.
  destruct u; simpl in *; try (apply IH; [done|lia]); try lia.
  destruct H as [H _]. unfold isn in *. destruct (Nat.eqb_spec o0 o) as [->|]; [lia|].
  rewrite IH; [lia|done|lia].
Qed.

Lemma reach_wfl s : reach s → Forall wfl (thr s).
Proof.
  revert s. apply reach_inv.
  - constructor.
  - intros s o Hr I. destruct o; cbn [api]; repeat (dgoal; try done); cbv zeta; split_drops;
      unfold add_addr, tx_drop, payload_drop, amsg_drop, rx_drop in *; repeat dgoal;
      repeat (progress (prj; autorewrite with fr_thr)); try done;
      apply Forall_app; (split; [done|]); constructor; try done; simpl; unfold isn; rewrite ?Nat.eqb_refl; split_and?; try done; try lia.
  - intros s t u rest s1 new Hr I Ht E Hthr. prj. rewrite Hthr. apply Forall_insert; [done|].
    assert (wfl rest) as Hrest by (eapply wfl_tail, (proj1 (Forall_lookup _ _) I); eassumption).
    clear Hthr. apply wfl_app; [|done].
    exec_cases u E; unfold rx_drop, payload_drop, tx_drop; try done; rewrite ?sum_notify by done; try done;
      repeat match goal with |- context [match ?x with _ => _ end] => destruct x end; done.
  - intros s Hr I Ho. by autorewrite with fr_thr.
Qed.

Lemma cancel_zero s t o rest :
  Forall wfl (thr s) → thr s !! t = Some (UOneDrop o :: rest) → msum (g_od o) s ≤ 1 →
  msum (g_can o) s = 0.
Proof.
  intros HF Ht H1.
  pose proof (msum_step (g_od o) s t _ rest [] s Ht eq_refl) as Ho.
  pose proof (msum_step (g_can o) s t _ rest [] s Ht eq_refl) as Hc. simpl in Ho, Hc.
  unfold isn in Ho. rewrite Nat.eqb_refl in Ho.
  rewrite Nat.add_0_r in Hc. rewrite Nat.add_0_r in Hc. rewrite <-Hc.
  assert (Forall wfl (<[t := rest]> (thr s))) as HF'.
  { apply Forall_insert; [done|]. eapply wfl_tail, (proj1 (Forall_lookup _ _) HF); eassumption. }
  apply sum_zero. intros l Hl. cbn in Hl. apply wfl_zero; [by apply (proj1 (Forall_forall _ _) HF')|].
  pose proof (sum_elem (Σ (g_od o)) _ _ Hl). unfold msum in *. cbn in *. lia.
Qed.

Lemma can_zero s o : Forall wfl (thr s) → msum (g_od o) s = 0 → msum (g_can o) s = 0.
Proof.
  intros HF H. apply sum_zero. intros l Hl. apply wfl_zero; [by apply (proj1 (Forall_forall _ _) HF)|].
  pose proof (sum_elem (Σ (g_od o)) _ _ Hl). unfold msum in *. lia.
Qed.
Lemma msum_split g h k s : (∀ u, g u = h u + k u) → msum g s = msum h s + msum k s.
Proof.
  intros H. unfold msum. rewrite <-sum_add. apply sum_ext. intros l _. rewrite <-sum_add.
  apply sum_ext. intros u _. apply H.
Qed.

(** ** The receiving half *)
Definition o_live (x : one) : nat := if o_rx x then 1 else 0.
Definition o_taken (x : one) : nat := match o_st x with OTaken => 1 | _ => 0 end.
Definition h_wait (o : nat) (h : holder) : nat :=
  match h_st h with HRecvWait k => isn o k | _ => 0 end.
Definition g_po (o : nat) (u : micro) : nat := match u with UPollOne _ k => isn o k | _ => 0 end.
Definition g_one (o : nat) (u : micro) : nat :=
  match u with UPollOne _ k | UOneDrop k => isn o k | _ => 0 end.
Definition g_pc (o : nat) (u : micro) : nat :=
  match u with UPollOne _ k | UCancel k => isn o k | _ => 0 end.

Definition InvOwn (s : state) : Prop := ∀ o,
  at_ o_live (ones s) o = Σ (h_wait o) (hols s) + msum (g_one o) s ∧
  at_ o_taken (ones s) o + Σ (h_wait o) (hols s) + msum (g_pc o) s ≤ 1.

(** Sending does not change who holds the receiving half. *)
Lemma at_map {A B} (g : B → nat) (f : A → B) l i : at_ g (f <$> l) i = at_ (λ x, g (f x)) l i.
Proof. unfold at_. rewrite list_lookup_fmap. by destruct (l !! i). Qed.
Definition oview (x : one) : bool * bool :=
  (o_rx x, match o_st x with OTaken => true | _ => false end).
Definition oviews (s : state) : list (bool * bool) := oview <$> ones s.
Lemma oviews_eq s s' : ones s = ones s' → oviews s = oviews s'.
Proof. unfold oviews. by intros ->. Qed.
Lemma fmap_insert_same {A B} (f : A → B) (l : list A) i x y :
  l !! i = Some x → f y = f x → f <$> <[i := y]> l = f <$> l.
Proof.
  intros Hi Hf. rewrite list_fmap_insert, Hf. apply list_insert_id. by rewrite list_lookup_fmap, Hi.
Qed.
Lemma one_send_oviews o c s : oviews (fst (one_send o c s)) = oviews s.
Proof.
  unfold one_send. destruct (ones s !! o) as [[[] []]|] eqn:E; try done. cbn [fst]. unfold oviews.
  autorewrite with fr_ones. prj. by eapply fmap_insert_same.
Qed.
Lemma one_sends_oviews l c s : oviews (fold_left (λ s o, fst (one_send o c s)) l s) = oviews s.
Proof. apply fold_left_proj. intros. apply one_send_oviews. Qed.
Lemma close_ones_oviews l s : oviews (fold_left close_one l s) = oviews s.
Proof.
  apply fold_left_proj. intros s' o. unfold close_one.
  destruct (ones s' !! o) as [[rx []]|] eqn:E; try done. unfold oviews.
  autorewrite with fr_ones. prj. by eapply fmap_insert_same.
Qed.
Lemma fulfill_oviews ws m s : oviews (fst (fulfill ws m s)) = oviews s.
Proof.
  revert s; induction ws as [|o ws IH]; intros s; simpl; [done|].
  pose proof (one_send_oviews o (CNewMsg m) s) as H.
  destruct (one_send o (CNewMsg m) s) as [s' []]; cbn [fst] in *; [done|]. by rewrite IH.
Qed.
Lemma send_broadcast_oviews m s : oviews (send_broadcast m s) = oviews s.
Proof.
  unfold send_broadcast. cbv zeta. match goal with |- oviews (emit _ (set_tail _ ?x)) = _ => change (oviews x = oviews s) end.
  rewrite one_sends_oviews. apply oviews_eq. prj. by autorewrite with fr_ones.
Qed.
Lemma pop_broadcast_oviews b s : oviews (fst (pop_broadcast b s)) = oviews s.
Proof.
  unfold pop_broadcast. destruct (heap_pop _ _) as [[m h]|]; [|done]. cbv zeta.
  case_match; cbn [fst]; [apply oviews_eq; prj; by autorewrite with fr_ones|].
  match goal with |- context [take_waitingA ?x] => dpair (take_waitingA x) end.
  destruct r1; cbn [fst]; rewrite ?send_broadcast_oviews; apply oviews_eq;
    autorewrite with fr_ones; prj; by autorewrite with fr_ones.
Qed.
Lemma free_oviews s : oviews (free_chan s) = oviews s.
Proof.
  unfold free_chan. cbv zeta. etrans; [apply oviews_eq; repeat (progress (prj; autorewrite with fr_ones)); reflexivity|].
  rewrite close_ones_oviews. apply oviews_eq. by repeat (progress (prj; autorewrite with fr_ones)).
Qed.
Lemma at_live_oviews s o : at_ o_live (ones s) o = at_ (λ v : bool * bool, if fst v then 1 else 0) (oviews s) o.
Proof. unfold oviews. rewrite at_map. done. Qed.
Lemma at_taken_oviews s o : at_ o_taken (ones s) o = at_ (λ v : bool * bool, if snd v then 1 else 0) (oviews s) o.
Proof.
  unfold oviews. rewrite at_map. unfold at_. destruct (ones s !! o) as [[? []]|]; done.
Qed.
Lemma try_fulfill_oviews m s : oviews (fst (try_fulfill_receiver m s)) = oviews s.
Proof. apply fulfill_oviews. Qed.
Lemma one_send_olive o c s k : at_ o_live (ones (fst (one_send o c s))) k = at_ o_live (ones s) k.
Proof. by rewrite !at_live_oviews, one_send_oviews. Qed.
Lemma one_send_otaken o c s k : at_ o_taken (ones (fst (one_send o c s))) k = at_ o_taken (ones s) k.
Proof. by rewrite !at_taken_oviews, one_send_oviews. Qed.
Lemma try_fulfill_olive m s k : at_ o_live (ones (fst (try_fulfill_receiver m s))) k = at_ o_live (ones s) k.
Proof. by rewrite !at_live_oviews, try_fulfill_oviews. Qed.
Lemma try_fulfill_otaken m s k : at_ o_taken (ones (fst (try_fulfill_receiver m s))) k = at_ o_taken (ones s) k.
Proof. by rewrite !at_taken_oviews, try_fulfill_oviews. Qed.
Lemma send_broadcast_olive m s k : at_ o_live (ones (send_broadcast m s)) k = at_ o_live (ones s) k.
Proof. by rewrite !at_live_oviews, send_broadcast_oviews. Qed.
Lemma send_broadcast_otaken m s k : at_ o_taken (ones (send_broadcast m s)) k = at_ o_taken (ones s) k.
Proof. by rewrite !at_taken_oviews, send_broadcast_oviews. Qed.
Lemma pop_broadcast_olive b s k : at_ o_live (ones (fst (pop_broadcast b s))) k = at_ o_live (ones s) k.
Proof. by rewrite !at_live_oviews, pop_broadcast_oviews. Qed.
Lemma pop_broadcast_otaken b s k : at_ o_taken (ones (fst (pop_broadcast b s))) k = at_ o_taken (ones s) k.
Proof. by rewrite !at_taken_oviews, pop_broadcast_oviews. Qed.
Lemma free_olive s k : at_ o_live (ones (free_chan s)) k = at_ o_live (ones s) k.
Proof. by rewrite !at_live_oviews, free_oviews. Qed.
Lemma free_otaken s k : at_ o_taken (ones (free_chan s)) k = at_ o_taken (ones s) k.
Proof. by rewrite !at_taken_oviews, free_oviews. Qed.
#[export] Hint Rewrite one_send_olive one_send_otaken try_fulfill_olive try_fulfill_otaken send_broadcast_olive send_broadcast_otaken pop_broadcast_olive pop_broadcast_otaken free_olive free_otaken : fr_ov.

Lemma reach_own s : reach s → InvOwn s.
Proof.
  revert s. apply reach_inv; unfold InvOwn.
  - intros c o. unfold at_. cbn. destruct o; cbn; lia.
  - intros s o Hr I i. specialize (I i). destruct I as [I1 I2]. split.
    + do_api o ltac:(autorewrite with fr_ones fr_hols).
    + do_api o ltac:(autorewrite with fr_ones fr_hols).
  - intros s t u rest s1 new Hr I Ht E Hthr i.
    pose proof (msum_step (g_one i) s t u rest new s1 Ht Hthr) as HM.
    pose proof (msum_step (g_pc i) s t u rest new s1 Ht Hthr) as HM2.
    pose proof (msum_head (g_one i) s t u rest Ht) as HH.
    revert HM HM2. generalize (msum (g_one i) (set_thr (<[t:=new ++ rest]> (thr s1)) s1)).
    generalize (msum (g_pc i) (set_thr (<[t:=new ++ rest]> (thr s1)) s1)). intros n2 n HM HM2.
    prj. clear Hthr.
    assert (∀ f, g_rf f u = 1 → at_ (h_wait i) (hols s) f = 0) as Hb.
    { intros f Hf. destruct (busyR_at _ _ _ _ _ Hr Ht Hf) as (sf & H1 & H2).
      rewrite !(at_some _ _ _ _ H1). unfold h_wait. by rewrite H2. }
    pose proof (I i) as [I1 I2].
    assert (msum (g_one i) s = msum (g_po i) s + msum (g_od i) s) as S1
      by (apply msum_split; intros []; cbn; lia).
    assert (msum (g_pc i) s = msum (g_po i) s + msum (g_can i) s) as S2
      by (apply msum_split; intros []; cbn; lia).
    pose proof (can_zero s i (reach_wfl _ Hr)) as Hcan.
    pose proof (msum_head (g_od i) s t u rest Ht) as HHd.
    pose proof (at_bound o_live (ones s) i 1 ltac:(intros [[] ?]; cbn; lia)) as Hlive.
    assert (∀ o, u = UOneDrop o → i = o → msum (g_can i) s = 0) as Hdrop.
    { intros o -> <-. apply (cancel_zero s t i rest); [by apply reach_wfl|done|lia]. }
    pose proof (at_ge o_live (ones s) i) as G1. pose proof (at_ge o_taken (ones s) i) as G2.
    assert (∀ f, g_rf f u = 1 → hols s !! f ≠ None) as Hn.
    { intros f Hf. destruct (busyR_at _ _ _ _ _ Hr Ht Hf) as (sf & H1 & H2). by rewrite H1. }
    do_exec u E HM ltac:(autorewrite with fr_hols fr_ones fr_ov).
    all: rewrite ?sum_list_with_app in HM2; try (rewrite sum_notify in HM2 by done).
    all: cbn -[Nat.eqb Nat.sub] in HM2.
    all: try (unfold isn in *; fin; done).
    all: tokb Hb g_rf; try (unfold isn in *; fin; done).
    all: tokb Hn g_rf; try match type of Em with _ = Some _ => rewrite (at_some _ _ _ _ Em) in * end; try done; cbn -[Nat.eqb] in *; unfold isn, o_live in *;
      cbn -[Nat.eqb] in *; try destruct o_rx; fin.
    all: try (specialize (Hdrop _ eq_refl eq_refl)); try lia.
  - intros s Hr I Ho i. rewrite (msum_eq (g_one i) s), (msum_eq (g_pc i) s) by (autorewrite with fr_thr; done).
    autorewrite with fr_hols fr_ov. apply I.
Qed.

