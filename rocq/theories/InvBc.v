(** Broadcasts: one copy per live mailbox, backlog bounds. *)
From stdpp Require Import base numbers list list_numbers.
From Coq Require Import Lia.
From Verif Require Import Prio Heap State Model HeapProofs Frame Lib InvBusy InvCount Effects InvMsg InvOne InvOne2 InvDisc
  InvWait InvWait2 InvHeap InvWs InvBlk InvSmall InvErr InvMsg2.

(** ** Measures *)
Definition bsum (c : bmsg → nat) (s : state) (b : nat) : nat := Σ c (bq_get s b).
Definition oB (c : bmsg → nat) (x : option bmsg) : nat := match x with Some m => c m | None => 0 end.
Definition bcell (c : bmsg → nat) (x : wcell bmsg) : nat := match x with WC true (WActive _ m) => c m | _ => 0 end.
Definition ibm (i : nat) (m : bmsg) : nat := isn i (bm_id m).
Definition live (s : state) : list nat := List.filter (bq_live s) (bqs s).
Definition ebr (e : ev) : bool := match e with EvBcast _ _ | EvRecv _ (ToAll _) => true | _ => false end.
Definition blog (s : state) : list ev := List.filter ebr (log s).
Definition hbqs (s : state) : list nat := h_bq <$> hols s.

Lemma blive_at s b : bq_live s b = (0 <? at_ bq_refs (bqueues s) b).
Proof. unfold bq_live, at_. by case_match. Qed.
Lemma bsum_at c s b : bsum c s b = at_ (λ q, Σ c (bq_heap q)) (bqueues s) b.
Proof. unfold bsum, bq_get, at_. by case_match. Qed.
Lemma bsum_put c b h s k : b < length (bqueues s) → bsum c (bq_put b h s) k = if b =? k then Σ c h else bsum c s k.
Proof.
  intros Hb. rewrite !bsum_at, bqueues_bq_put, at_alter. destruct (Nat.eqb_spec b k) as [<-|]; [|done].
  unfold at_. by destruct (lookup_lt_is_Some_2 _ _ Hb) as [q ->].
Qed.
Lemma length_refs s : length (bqueues s) = length (refs s).
Proof. unfold refs. by rewrite map_length. Qed.
Lemma bq_put_len b h s : length (bqueues (bq_put b h s)) = length (bqueues s).
Proof. by rewrite !length_refs, bq_put_refs. Qed.
Lemma puts_sum c m l s k : Forall (λ b, b < length (bqueues s)) l →
  bsum c (fold_left (λ s b, bq_put b (heap_push bm_prio m (bq_get s b)) s) l s) k = bsum c s k + Σ (isn k) l * c m.
Proof.
  revert s; induction l as [|b l IH]; intros s Hl; simpl; [lia|]. inversion Hl as [|?? Hb Hl']; subst.
  rewrite IH by (eapply Forall_impl; [exact Hl'|]; intros; cbn; by rewrite bq_put_len).
  rewrite bsum_put by done. unfold isn at 2. destruct (Nat.eqb_spec b k) as [->|]; [|lia].
  rewrite sum_push. fold (bsum c s k). lia.
Qed.
Lemma sum_filter (p : nat → bool) k l : Σ (isn k) (List.filter p l) = Σ (isn k) l * (if p k then 1 else 0).
Proof.
  induction l as [|b l IH]; simpl; [done|]. destruct (p b) eqn:E; simpl; rewrite IH; unfold isn.
  - destruct (Nat.eqb_spec b k) as [->|]; [rewrite E; lia|lia].
  - destruct (Nat.eqb_spec b k) as [->|]; [rewrite E; lia|lia].
Qed.
Lemma isn_elem k l : 0 < Σ (isn k) l ↔ k ∈ l.
Proof.
  induction l as [|b l IH]; simpl; [split; [lia|by intros ?%elem_of_nil]|]. rewrite elem_of_cons, <-IH. unfold isn at 1.
  destruct (Nat.eqb_spec b k) as [->|]; split; intros H; [by left|lia|right; lia|destruct H as [H|H]; [congruence|lia]].
Qed.
Lemma live_sum s k : Σ (isn k) (live s) = Σ (isn k) (bqs s) * (if bq_live s k then 1 else 0).
Proof. apply sum_filter. Qed.
Lemma sb_bqueues m s : bqueues (send_broadcast m s) = bqueues (fold_left (λ s b, bq_put b (heap_push bm_prio m (bq_get s b)) s) (live s) s).
Proof. unfold send_broadcast. cbv zeta. by repeat (progress (prj; autorewrite with fr_bqueues)). Qed.
Lemma sb_sum c m s k : Forall (λ b, b < length (bqueues s)) (bqs s) →
  bsum c (send_broadcast m s) k = bsum c s k + Σ (isn k) (live s) * c m.
Proof.
  intros Hb. rewrite <-(puts_sum c m (live s) s k).
  - by rewrite !bsum_at, sb_bqueues.
  - rewrite Forall_forall in *. intros x. unfold live. rewrite elem_of_list_In, filter_In, <-elem_of_list_In. intros []; auto.
Qed.
Lemma sb_len m s : length (bqueues (send_broadcast m s)) = length (bqueues s).
Proof. by rewrite !length_refs, send_broadcast_refs. Qed.
Lemma sb_live m s k : bq_live (send_broadcast m s) k = bq_live s k.
Proof. by rewrite !blive_at, !at_refs, send_broadcast_refs. Qed.
Lemma sb_bqs m s : bqs (send_broadcast m s) = live s.
Proof. unfold send_broadcast. cbv zeta. by repeat (progress (prj; autorewrite with fr_bqs)). Qed.
Lemma sb_tail m s : tail (send_broadcast m s) = S (tail s).
Proof. unfold send_broadcast. cbv zeta. by repeat (progress (prj; autorewrite with fr_tail)). Qed.
Lemma sb_blog m s : blog (send_broadcast m s) = EvBcast m (live s) :: blog s.
Proof. unfold blog. by rewrite send_broadcast_log. Qed.
Lemma sb_hols m s : hols (send_broadcast m s) = hols s.
Proof. unfold send_broadcast. cbv zeta. by repeat (progress (prj; autorewrite with fr_hols)). Qed.

(** ** Receiving a broadcast *)
Definition pop_put (b : nat) (h : list bmsg) (s : state) : state :=
  set_tail (longest_broadcast_queue (bq_put b h s)) (bq_put b h s).
Definition quietA (s s' : state) : Prop :=
  bqueues s' = bqueues s ∧ bqs s' = bqs s ∧ tail s' = tail s ∧ cap s' = cap s ∧ blog s' = blog s ∧ hols s' = hols s.
Lemma take_waitingA_quiet s : quietA s (fst (take_waitingA s)).
Proof. unfold quietA, blog. by repeat (progress (prj; autorewrite with fr_bqueues fr_bqs fr_tail fr_cap fr_log fr_hols)). Qed.
Lemma pop_broadcast_cases b s :
  (snd (pop_broadcast b s) = None ∧ fst (pop_broadcast b s) = s) ∨
  ∃ m h, heap_pop bm_prio (bq_get s b) = Some (m, h) ∧ snd (pop_broadcast b s) = Some m ∧
  ((broadcast_full (pop_put b h s) = true ∧ fst (pop_broadcast b s) = pop_put b h s) ∨
   broadcast_full (pop_put b h s) = false ∧ ∃ s3 x, take_waitingA (pop_put b h s) = (s3, x) ∧ quietA (pop_put b h s) s3 ∧
     fst (pop_broadcast b s) = match x with Some m2 => send_broadcast m2 s3 | None => s3 end).
Proof.
  unfold pop_broadcast. destruct (heap_pop _ _) as [[m h]|] eqn:E; [right; exists m, h|by left]. cbv zeta.
  fold (pop_put b h s). destruct (broadcast_full (pop_put b h s)) eqn:F; [split_and!; auto|].
  pose proof (take_waitingA_quiet (pop_put b h s)) as HQ.
  destruct (take_waitingA (pop_put b h s)) as [s3 x] eqn:T. split_and!; [done|by destruct x|]. right. split; [done|].
  exists s3, x. split_and!; [done|done|by destruct x].
Qed.

(** ** What one atomic action does to broadcasts *)
Definition sameB (s s' : state) : Prop :=
  bqueues s' = bqueues s ∧ bqs s' = bqs s ∧ tail s' = tail s ∧ cap s' = cap s ∧ blog s' = blog s ∧ hbqs s' = hbqs s.
Lemma blog_emit e s : ebr e = false → blog (emit e s) = blog s.
Proof. unfold blog, emit. cbn. by intros ->. Qed.
Lemma blog_log s s' : log s' = log s → blog s' = blog s.
Proof. unfold blog. by intros ->. Qed.
Lemma hbqs_set_hst r x s : hbqs (set_hst r x s) = hbqs s.
Proof.
  unfold set_hst, hbqs. destruct (hols s !! r) as [h|] eqn:E; [|done]. prj. rewrite list_fmap_insert. cbn.
  apply list_insert_id. by rewrite list_lookup_fmap, E.
Qed.
Lemma hbqs_hols s s' : hols s' = hols s → hbqs s' = hbqs s.
Proof. unfold hbqs. by intros ->. Qed.
Lemma drop_umsgs_blog y l s : blog (drop_umsgs y l s) = blog s.
Proof.
  unfold drop_umsgs. revert s; induction l as [|m l IH]; intros s; simpl; [done|]. rewrite IH.
  unfold drop_umsg. rewrite blog_emit by done. apply blog_log. by autorewrite with fr_log.
Qed.
Lemma close_handles1_blog l s : blog (fold_left close_handle1 l s) = blog s.
Proof.
  revert s; induction l as [|c l IH]; intros s; simpl; [done|]. rewrite IH. unfold close_handle1. repeat case_match; try done.
  unfold drop_umsg. rewrite blog_emit by done. apply blog_log. by repeat (progress (prj; autorewrite with fr_log)).
Qed.
Lemma rx_shutdown_blog s : blog (exec_rx_shutdown s) = blog s.
Proof.
  unfold exec_rx_shutdown. cbv zeta. erewrite blog_log by (by autorewrite with fr_log).
  erewrite (blog_log (fold_left close_handle1 _ _)) by (by repeat (progress (prj; autorewrite with fr_log))).
  rewrite close_handles1_blog. erewrite blog_log by (by repeat (progress (prj; autorewrite with fr_log))).
  rewrite drop_umsgs_blog. apply blog_log. by repeat (progress (prj; autorewrite with fr_log)).
Qed.
Lemma free_blog s : blog (free_chan s) = blog s.
Proof.
  unfold free_chan. cbv zeta. erewrite blog_log by (by repeat (progress (prj; autorewrite with fr_log))).
  rewrite drop_umsgs_blog. erewrite blog_log by (by repeat (progress (prj; autorewrite with fr_log))).
  rewrite close_handles1_blog. apply blog_log. by repeat (progress (prj; autorewrite with fr_log)).
Qed.
Lemma pop_unicast_blog s : blog (fst (pop_unicast s)) = blog s.
Proof. destruct (pop_unicast_spec s) as (x & _ & _ & H). unfold blog. rewrite H. by destruct x. Qed.

Lemma same_hst r x e s s' : ebr e = false → sameB s s' → sameB s (emit e (set_hst r x s')).
Proof.
  intros He (H1 & H2 & H3 & H4 & H5 & H6). unfold sameB. repeat (progress (prj; autorewrite with fr_bqueues fr_bqs fr_tail fr_cap)).
  split_and!; try done.
  - rewrite blog_emit by done. erewrite blog_log; [exact H5|]. by autorewrite with fr_log.
  - erewrite (hbqs_hols (set_hst r x s')) by done. by rewrite hbqs_set_hst.
Qed.
Lemma same_pop_unicast s : sameB s (fst (pop_unicast s)).
Proof.
  unfold sameB. rewrite pop_unicast_blog. split_and!; try done; [by autorewrite with fr_bqueues fr_bqs fr_tail fr_cap..|].
  apply hbqs_hols. by autorewrite with fr_hols.
Qed.
Lemma pop_broadcast_None b s : snd (pop_broadcast b s) = None → fst (pop_broadcast b s) = s.
Proof. destruct (pop_broadcast_cases b s) as [[_ ->]|(m & h & _ & -> & _)]; done. Qed.
Lemma same_refl s : sameB s s.
Proof. unfold sameB. done. Qed.
Lemma bexec u s s1 new : exec u s = (s1, new) →
  sameB s s1 ∨ (∃ b, u = UBqRel b) ∨ u = UCloneReg ∨ u = URxShutdown ∨
  (∃ f m k, u = USendLock f (PB m) k ∧ broadcast_full s = false ∧ s1 = send_broadcast m s) ∨ u = UStopAll ∨
  (∃ r h m, g_rf r u = 1 ∧ hols s !! r = Some h ∧ s1 = deliver r (ToAll m) (fst (pop_broadcast (h_bq h) s)) ∧ snd (pop_broadcast (h_bq h) s) = Some m).
Proof.
  intros E. unfold sameB.
  exec_cases u E; try (right; by eauto 10); try (do 6 right; eexists _, _, _; split_and!; [| |done|done]; [cbn; by rewrite ?Nat.eqb_refl|done]).
  all: try (left; repeat (progress (prj; autorewrite with fr_bqueues fr_bqs fr_tail fr_cap));
    split_and!; [done..| |]; [|(erewrite hbqs_hols by (by repeat (progress (prj; autorewrite with fr_hols)))); rewrite ?hbqs_set_hst; apply hbqs_hols; by repeat (progress (prj; autorewrite with fr_hols))];
    unfold blog; repeat (progress (prj; autorewrite with fr_log)); try done).
  all: try match goal with H : snd (pop_broadcast _ _) = None |- _ => rewrite (pop_broadcast_None _ _ H) end.
  all: try (left; unfold deliver; apply same_hst; [done|]; by auto using same_refl, same_pop_unicast).
  left; apply same_refl.
Qed.

(** ** What one API call does to broadcasts *)
Lemma hbqs_insert r h x s : hols s !! r = Some h → h_bq x = h_bq h → h_bq <$> <[r := x]> (hols s) = hbqs s.
Proof. intros E Hx. rewrite list_fmap_insert, Hx. apply list_insert_id. unfold hbqs. by rewrite list_lookup_fmap, E. Qed.
Lemma bapi o s : reach s →
  bqs (api o s) = bqs s ∧ tail (api o s) = tail s ∧ cap (api o s) = cap s ∧ blog (api o s) = blog s ∧
  (∀ b, bq_get (api o s) b = bq_get s b) ∧ length (bqueues (api o s)) = length (bqueues s) ∧
  (∀ b, bq_live (api o s) b = bq_live s b) ∧
  (hbqs (api o s) = hbqs s ∨ ∃ b, hbqs (api o s) = hbqs s ++ [b] ∧ b < length (bqueues s)).
Proof.
  intros Hr. assert (∀ P : state → Prop, P s → P s) as HP by auto.
  destruct o; cbn [api]; repeat (dgoal; try (split_and!; auto; fail)); cbv zeta; unfold add_addr, call, put_sf; repeat dgoal;
    unfold blog, bq_get, bq_live; repeat (progress (prj; autorewrite with fr_bqs fr_tail fr_cap fr_log fr_bqueues));
    try (split_and!; try done; left; unfold hbqs; repeat (progress (prj; autorewrite with fr_hols)); first [done|eapply hbqs_insert; [eassumption|done]]; fail).
  assert (at_ bq_refs (bqueues s) (h_bq h0) ≠ 0) as Hl.
  { rewrite (reach_bq s Hr). pose proof (sum_lookup (h_own (h_bq h0)) _ _ _ Em) as H. unfold h_own in H at 1.
    rewrite Nat.eqb_refl in H. destruct (h_st h0); try done; lia. }
  split_and!; try done.
  - intros k. destruct (decide (h_bq h0 = k)) as [<-|].
    + by rewrite list_lookup_insert, Em1 by (by eapply lookup_lt_Some).
    + by rewrite list_lookup_insert_ne.
  - by rewrite insert_length.
  - intros k. destruct (decide (h_bq h0 = k)) as [<-|].
    + rewrite list_lookup_insert, Em1 by (by eapply lookup_lt_Some). cbn. rewrite (at_some _ _ _ _ Em1) in Hl. destruct (bq_refs b); [done|]. done.
    + by rewrite list_lookup_insert_ne.
  - right. exists (h_bq h0). split; [|by eapply lookup_lt_Some]. unfold hbqs. prj. by rewrite fmap_app.
Qed.

(** ** Effect of receiving a broadcast *)
Lemma live_refs s s' : refs s' = refs s → bqs s' = bqs s → live s' = live s.
Proof.
  intros H1 H2. unfold live. rewrite H2. apply filter_ext. intros k. by rewrite !blive_at, !at_refs, H1.
Qed.
Lemma pop_put_refs b h s : refs (pop_put b h s) = refs s.
Proof. unfold pop_put. rewrite (refs_eq (bq_put b h s)) by done. apply bq_put_refs. Qed.
Lemma pop_put_bqs b h s : bqs (pop_put b h s) = bqs s.
Proof. unfold pop_put. prj. by autorewrite with fr_bqs. Qed.
Lemma pop_eff b s m : b < length (bqueues s) → Forall (λ k, k < length (bqueues s)) (bqs s) →
  snd (pop_broadcast b s) = Some m →
  let s' := fst (pop_broadcast b s) in
  ∃ x, (∀ c k, bsum c s' k + isn k b * c m = bsum c s k + Σ (isn k) (live s) * oB c x) ∧
    bqs s' = match x with Some _ => live s | None => bqs s end ∧
    blog s' = match x with Some m2 => [EvBcast m2 (live s)] | None => [] end ++ blog s ∧
    hols s' = hols s.
Proof.
  intros Hb Hl Hm. cbv zeta.
  assert (∀ h c k, heap_pop bm_prio (bq_get s b) = Some (m, h) → bsum c (pop_put b h s) k + isn k b * c m = bsum c s k) as HS.
  { intros h c k Hh. assert (bsum c (pop_put b h s) k = bsum c (bq_put b h s) k) as -> by done.
    rewrite bsum_put by done. unfold isn. destruct (Nat.eqb_spec b k) as [->|]; [|lia].
    unfold bsum. rewrite (sum_pop _ _ _ _ _ Hh). lia. }
  assert (∀ h, blog (pop_put b h s) = blog s) as HL.
  { intros h. apply blog_log. unfold pop_put. prj. by autorewrite with fr_log. }
  assert (∀ h, hols (pop_put b h s) = hols s) as HH.
  { intros h. unfold pop_put. prj. by autorewrite with fr_hols. }
  destruct (pop_broadcast_cases b s) as [[E _]|(m' & h & Hh & Hm' & [[_ ->]|(_ & s3 & x & _ & (Q1 & Q2 & Q3 & Q4 & Q5 & Q6) & ->)])]; [congruence|..].
  - rewrite Hm in Hm'. injection Hm' as <-. exists None. split_and!; [|apply pop_put_bqs|apply HL|apply HH].
    intros c k. rewrite HS by done. cbn. lia.
  - rewrite Hm in Hm'. injection Hm' as <-.
    assert (∀ c k, bsum c s3 k = bsum c (pop_put b h s) k) as H3.
    { intros. by rewrite !bsum_at, Q1. }
    assert (live s3 = live s) as L3.
    { apply live_refs; [rewrite (refs_eq _ _ Q1); apply pop_put_refs|by rewrite Q2, pop_put_bqs]. }
    exists x. destruct x as [m2|].
    + rewrite sb_bqs, sb_blog, sb_hols, L3, Q5, HL, Q6, HH. split_and!; try done. intros c k.
      rewrite sb_sum.
      * rewrite H3, L3. specialize (HS h c k Hh). cbn [oB]. lia.
      * rewrite Q1, Q2, pop_put_bqs. unfold pop_put. prj. by rewrite bq_put_len.
    + rewrite Q2, Q5, HL, Q6, HH, pop_put_bqs. split_and!; try done. intros c k. rewrite H3. specialize (HS h c k Hh). cbn. lia.
Qed.
Lemma deliver_same r a s : bqueues (deliver r a s) = bqueues s ∧ bqs (deliver r a s) = bqs s ∧ tail (deliver r a s) = tail s ∧
  hbqs (deliver r a s) = hbqs s ∧ rxc (deliver r a s) = rxc s ∧ cap (deliver r a s) = cap s.
Proof.
  unfold deliver. repeat (progress (prj; autorewrite with fr_bqueues fr_bqs fr_tail fr_rxc fr_cap)). split_and!; try done.
  erewrite (hbqs_hols (set_hst r _ s)) by done. apply hbqs_set_hst.
Qed.

(** ** Registered queues *)
Definition InvBs (s : state) : Prop :=
  (∀ b, Σ (isn b) (bqs s) ≤ lt1 b (length (bqueues s))) ∧
  (∀ b, bq_live s b = true → 0 < rxc s → 0 < Σ (isn b) (bqs s)) ∧
  Forall (λ b, b < length (bqueues s)) (hbqs s).
Lemma bqs_lt s : (∀ b, Σ (isn b) (bqs s) ≤ lt1 b (length (bqueues s))) → Forall (λ k, k < length (bqueues s)) (bqs s).
Proof.
  intros H. rewrite Forall_forall. intros k Hk. apply isn_elem in Hk. specialize (H k). unfold lt1 in H.
  destruct (Nat.ltb_spec k (length (bqueues s))); lia.
Qed.
Lemma owned0_rx s : reach s → chan_owned s = false → rxc s = 0.
Proof.
  intros Hr Ho. pose proof (reach_rx s Hr) as HR. unfold InvRx in HR.
  pose proof (owned_nown s Ho) as Hn. unfold nown in Hn.
  assert (Σ h_rx (hols s) = Σ h_any (hols s)) as E1 by done.
  assert (msum g_rx s ≤ msum g_own s) as E2.
  { unfold msum. apply sum_le. intros l. apply sum_le. intros []; cbn; lia. }
  lia.
Qed.
Lemma reach_bs s : reach s → InvBs s.
Proof.
  revert s. apply reach_inv; unfold InvBs.
  - intros c. split_and!; cbn.
    + intros b. unfold lt1, isn. destruct (Nat.eqb_spec 0 b), (Nat.ltb_spec b 1); lia.
    + intros [|b] Hb _; [unfold isn; cbn; lia|]. destruct b; done.
    + by repeat constructor.
  - intros s o Hr (I1 & I2 & I3). destruct (bapi o s Hr) as (H1 & H2 & H3 & H4 & H5 & H6 & H7 & H8).
    rewrite H1, H6. split_and!; [done| |].
    + intros b. rewrite H7. intros Hb Hx. apply I2; [done|].
      destruct (decide (rxc s = 0)) as [E|]; [|lia]. pose proof (rxc0_api s o Hr E). lia.
    + destruct H8 as [->|(b & -> & Hb)]; [done|]. apply Forall_app; split; [done|]. by repeat constructor.
  - intros s t u rest s1 new Hr (I1 & I2 & I3) Ht E Hthr.
    assert (rxc s = 0 → rxc s1 = 0) as Hx by (intros H0; pose proof (rxc0_exec s u H0) as H; by rewrite E in H).
    assert ((∀ b, Σ (isn b) (bqs s1) ≤ lt1 b (length (bqueues s1))) ∧ (∀ b, bq_live s1 b = true → 0 < rxc s1 → 0 < Σ (isn b) (bqs s1)) ∧
       Forall (λ b, b < length (bqueues s1)) (hbqs s1)); [|done].
    destruct (bexec u s s1 new E) as [(Q1 & Q2 & Q3 & Q4 & Q5 & Q6)|[(b & ->)|[->|[->|[(f & m & k & -> & Hf & ->)|[->|(r & h & m & Hg & Hh & -> & Hm)]]]]]].
    + rewrite Q1, Q2, Q6. split_and!; [done| |done]. intros b Hb H. apply I2; [|lia]. by rewrite !blive_at, Q1 in *.
    + cbn in E. destruct (bqueues s !! b) as [q|] eqn:Eb; injection E as <- <-; [|split_and!; done].
      prj. rewrite insert_length. split_and!; [done| |done]. intros k. rewrite blive_at. prj. erewrite at_insert by done. cbn.
      intros Hk. apply I2. rewrite blive_at. destruct (Nat.eqb_spec b k) as [Ek|]; [|done]. subst b. rewrite (at_some _ _ _ _ Eb).
      apply Nat.ltb_lt. destruct (bq_refs q) as [|n]; [done|]. lia.
    + cbn in E. injection E as <- <-. prj. rewrite app_length, Nat.add_1_r. split_and!.
      * intros b. rewrite sum_snoc, lt1_S. specialize (I1 b). lia.
      * intros b. rewrite blive_at, sum_snoc. prj. rewrite at_snoc. cbn [bq_refs]. unfold isn at 2. destruct (Nat.eqb_spec (length (bqueues s)) b); [lia|].
        rewrite <-blive_at. intros Hb H. specialize (I2 b Hb H). lia.
      * unfold hbqs. prj. rewrite fmap_app. apply Forall_app; split; [|by repeat constructor].
        eapply Forall_impl; [exact I3|]. cbn. lia.
    + cbn in E. injection E as <- <-.
      assert (rxc s = 0) as H0. { apply (reach_rs s Hr). pose proof (msum_head g_rs _ _ _ _ Ht). cbn in *. lia. }
      rewrite (Hx H0). split_and!; [|lia|].
      * intros b. unfold exec_rx_shutdown. cbv zeta. repeat (progress (prj; autorewrite with fr_bqs fr_bqueues)). cbn. lia.
      * unfold hbqs, exec_rx_shutdown. cbv zeta. by repeat (progress (prj; autorewrite with fr_bqueues fr_hols)).
    + rewrite sb_bqs, sb_len. unfold hbqs. rewrite sb_hols. split_and!; [| |done].
      * intros b. rewrite live_sum. specialize (I1 b). destruct (bq_live s b); lia.
      * intros b. rewrite sb_live, live_sum. intros Hb Hx1. rewrite Hb. rewrite Nat.mul_1_r. apply I2; [done|].
        destruct (decide (rxc s = 0)); [|lia]. rewrite Hx in Hx1 by done. lia.
    + cbn in E. injection E as <- <-.
      rewrite sb_bqs, sb_len. unfold hbqs. rewrite sb_hols. split_and!; [| |done].
      * intros b. rewrite live_sum. specialize (I1 b). prj. destruct (bq_live _ b); lia.
      * intros b. rewrite sb_live, live_sum. intros Hb Hx1. rewrite Hb. rewrite Nat.mul_1_r. apply I2; [done|].
        destruct (decide (rxc s = 0)); [|lia]. rewrite Hx in Hx1 by done. lia.
    + destruct (deliver_same r (ToAll m) (fst (pop_broadcast (h_bq h) s))) as (D1 & D2 & D3 & D4 & D5 & D6).
      rewrite D1, D2, D4.
      assert (h_bq h < length (bqueues s)) as Hb.
      { rewrite Forall_forall in I3. apply I3. unfold hbqs. apply elem_of_list_fmap. exists h. split; [done|]. by eapply elem_of_list_lookup_2. }
      destruct (pop_eff _ _ _ Hb (bqs_lt _ I1) Hm) as (x & P1 & P2 & P3 & P4).
      assert (length (bqueues (fst (pop_broadcast (h_bq h) s))) = length (bqueues s)) as HL by (by rewrite !length_refs, pop_broadcast_refs).
      rewrite HL, P2. unfold hbqs. rewrite P4.
      assert (∀ b, bq_live (deliver r (ToAll m) (fst (pop_broadcast (h_bq h) s))) b = bq_live s b) as HLi.
      { intros b. by rewrite !blive_at, D1, !at_refs, pop_broadcast_refs. }
      split_and!; [| |done].
      * intros b. destruct x; [|done]. rewrite live_sum. specialize (I1 b). destruct (bq_live _ b); lia.
      * intros b. rewrite HLi. intros Hbl Hx1.
        assert (0 < Σ (isn b) (bqs s)) as HI. { apply I2; [done|]. destruct (decide (rxc s = 0)); [|lia]. rewrite Hx in Hx1 by done. lia. }
        destruct x; [|done]. rewrite live_sum, Hbl. lia.
  - intros s Hr (I1 & I2 & I3) Ho. unfold hbqs, bq_live. autorewrite with fr_bqueues fr_hols fr_rxc. pose proof (owned0_rx s Hr Ho) as H0.
    split_and!; [|lia|done]. intros b. unfold free_chan. cbv zeta. prj. cbn. lia.
Qed.

(** ** Copies of a broadcast *)
Definition e_brc (q : list nat) (b i : nat) (e : ev) : nat :=
  match e with EvRecv r (ToAll m) => match q !! r with Some k => isn b k * ibm i m | None => 0 end | _ => 0 end.
Definition e_bput (b i : nat) (e : ev) : nat := match e with EvBcast m l => ibm i m * Σ (isn b) l | _ => 0 end.
Definition e_bc (i : nat) (e : ev) : nat := match e with EvBcast m _ => ibm i m | _ => 0 end.
Definition InvCp (s : state) : Prop := ∀ b i,
  (∀ r m, EvRecv r (ToAll m) ∈ blog s → r < length (hbqs s)) ∧
  (length (bqueues s) ≤ b → Σ (e_bput b i) (blog s) = 0) ∧
  bsum (ibm i) s b + Σ (e_brc (hbqs s) b i) (blog s) ≤ Σ (e_bput b i) (blog s) ∧
  (bq_live s b = true → bsum (ibm i) s b + Σ (e_brc (hbqs s) b i) (blog s) = Σ (e_bput b i) (blog s)) ∧
  Σ (e_bput b i) (blog s) ≤ Σ (e_bc i) (blog s).
Lemma sum_ext_in {A} (g h : A → nat) l : (∀ x, x ∈ l → g x = h x) → Σ g l = Σ h l.
Proof. induction l as [|x l IH]; simpl; [done|]. intros H. rewrite IH, (H x); [done|left|]. intros y Hy. apply H. by right. Qed.
Lemma brc_snoc q k b i l : (∀ r m, EvRecv r (ToAll m) ∈ l → r < length q) → Σ (e_brc (q ++ [k]) b i) l = Σ (e_brc q b i) l.
Proof.
  intros H. apply sum_ext_in. intros [] He; try done. cbn. destruct a; try done. rewrite lookup_app_l; [done|]. eapply H, He.
Qed.
Lemma reach_cp s : reach s → InvCp s.
Proof.
  revert s. apply reach_inv; unfold InvCp.
  - intros c b i. split_and!; [by intros ?? ?%elem_of_nil|done|..]; destruct b; done.
  - intros s o Hr I b i. destruct (I b i) as (I1 & I2 & I3 & I4 & I5).
    destruct (bapi o s Hr) as (H1 & H2 & H3 & H4 & H5 & H6 & H7 & H8).
    unfold bsum. rewrite H4, H5, H6, H7. fold (bsum (ibm i) s b).
    destruct H8 as [->|(k & -> & Hk)]; [done|]. rewrite brc_snoc by done. split_and!; try done.
    intros r m Hm. specialize (I1 r m Hm). rewrite app_length. cbn. lia.
  - intros s t u rest s1 new Hr I Ht E Hthr b i. pose proof (I b i) as (I1 & I2 & I3 & I4 & I5).
    destruct (reach_bs s Hr) as (B1 & B2 & B3).
    assert ((∀ r m, EvRecv r (ToAll m) ∈ blog s1 → r < length (hbqs s1)) ∧
      (length (bqueues s1) ≤ b → Σ (e_bput b i) (blog s1) = 0) ∧
      bsum (ibm i) s1 b + Σ (e_brc (hbqs s1) b i) (blog s1) ≤ Σ (e_bput b i) (blog s1) ∧
      (bq_live s1 b = true → bsum (ibm i) s1 b + Σ (e_brc (hbqs s1) b i) (blog s1) = Σ (e_bput b i) (blog s1)) ∧
      Σ (e_bput b i) (blog s1) ≤ Σ (e_bc i) (blog s1)); [|done].
    assert (∀ m l, Σ (isn b) l ≤ 1 → e_bput b i (EvBcast m l) ≤ e_bc i (EvBcast m l)) as Hput.
    { intros m l Hl. cbn. nia. }
    assert (∀ b, Σ (isn b) (live s) ≤ lt1 b (length (bqueues s))) as Hlive.
    { intros k. rewrite live_sum. specialize (B1 k). destruct (bq_live s k); lia. }
    assert (∀ b n, lt1 b n ≤ 1) as Hlt1 by (intros; unfold lt1; case_match; lia).
    assert (∀ b n, n ≤ b → lt1 b n = 0) as Hlt0 by (intros ?? Hn; unfold lt1; by apply Nat.ltb_ge in Hn as ->).
    destruct (bexec u s s1 new E) as [(Q1 & Q2 & Q3 & Q4 & Q5 & Q6)|[(k & ->)|[->|[->|[(f & m & k & -> & Hf & ->)|[->|(r & h & m & Hg & Hh & -> & Hm)]]]]]].
    + rewrite !bsum_at, blive_at, Q1, Q5, Q6, <-bsum_at, <-blive_at. done.
    + cbn in E. destruct (bqueues s !! k) as [q|] eqn:Eb; injection E as <- <-; [|done].
      rewrite !bsum_at, !blive_at in *. unfold blog, hbqs in *. prj. rewrite insert_length. erewrite !at_insert by done. cbn.
      destruct (Nat.eqb_spec k b) as [->|]; [|done]. rewrite (at_some _ _ _ _ Eb) in I3, I4. rewrite (at_some _ _ _ _ Eb) in I4.
      split_and!; try done.
      * destruct (Nat.eqb_spec (bq_refs q) 1); cbn; lia.
      * intros Hq. destruct (Nat.eqb_spec (bq_refs q) 1) as [E1|]; [by rewrite E1 in Hq|]. apply I4. apply Nat.ltb_lt.
        destruct (bq_refs q); [done|lia].
    + cbn in E. injection E as <- <-. rewrite !bsum_at, !blive_at in *. prj. rewrite app_length, !at_snoc. cbn [length bq_heap bq_refs].
      assert (hbqs (set_hols (hols s ++ [HO (length (bqueues s)) HMailbox true 0])
         (set_bqs (bqs s ++ [length (bqueues s)]) (set_bqueues (bqueues s ++ [BQ 1 []]) s))) = hbqs s ++ [length (bqueues s)]) as ->.
      { unfold hbqs. prj. by rewrite fmap_app. }
      unfold blog in *. prj. rewrite brc_snoc by done.
      split_and!; try done.
      * intros r m Hm. specialize (I1 r m Hm). rewrite app_length. cbn. lia.
      * intros Hb. apply I2. lia.
      * destruct (Nat.eqb_spec (length (bqueues s)) b); [|done]. cbn. lia.
      * destruct (Nat.eqb_spec (length (bqueues s)) b); [|done]. intros _. cbn. rewrite I2 in * by lia. lia.
    + cbn in E. injection E as <- <-. rewrite rx_shutdown_blog. rewrite !bsum_at, !blive_at in *. unfold hbqs in *.
      by replace (bqueues (exec_rx_shutdown s)) with (bqueues s) by (unfold exec_rx_shutdown; cbv zeta; by repeat (progress (prj; autorewrite with fr_bqueues)));
      replace (hols (exec_rx_shutdown s)) with (hols s) by (unfold exec_rx_shutdown; cbv zeta; by repeat (progress (prj; autorewrite with fr_hols))).
    + rewrite sb_sum, sb_len, sb_live, sb_blog by (by apply bqs_lt). unfold hbqs in *. rewrite sb_hols.
      pose proof (Hlive b). pose proof (Hlt1 b (length (bqueues s))).
      split_and!.
      * intros r x [?|?]%elem_of_cons; [done|by eapply I1].
      * intros Hb. rewrite (Hlt0 _ _ Hb) in *. cbn. rewrite I2 by done. nia.
      * cbn. unfold ibm in *. nia.
      * intros Hb. specialize (I4 Hb). cbn. unfold ibm in *. nia.
      * specialize (Hput m (live s) ltac:(lia)). cbn in *. lia.
    + cbn in E. injection E as <- <-. set (s0 := set_nbm (S (nbm s)) s).
      assert (live s0 = live s) as L0 by done. assert (blog s0 = blog s) as B0 by done.
      rewrite sb_sum, sb_len, sb_live, sb_blog by (by apply bqs_lt). unfold hbqs in *. rewrite sb_hols, L0, B0.
      change (bsum (ibm i) s0 b) with (bsum (ibm i) s b). change (hols s0) with (hols s).
      pose proof (Hlive b). pose proof (Hlt1 b (length (bqueues s))).
      split_and!.
      * intros r x [?|?]%elem_of_cons; [done|by eapply I1].
      * intros Hb. change (length (bqueues s) ≤ b) in Hb. rewrite (Hlt0 _ _ Hb) in *. cbn. rewrite I2 by done. nia.
      * cbn. unfold ibm in *. nia.
      * intros Hb. specialize (I4 Hb). cbn. unfold ibm in *. nia.
      * specialize (Hput (BStop (nbm s)) (live s) ltac:(lia)). cbn in *. lia.
    + destruct (deliver_same r (ToAll m) (fst (pop_broadcast (h_bq h) s))) as (D1 & D2 & D3 & D4 & D5 & D6).
      assert (h_bq h < length (bqueues s)) as Hb.
      { rewrite Forall_forall in B3. apply B3. unfold hbqs. apply elem_of_list_fmap. exists h. split; [done|]. by eapply elem_of_list_lookup_2. }
      destruct (pop_eff _ _ _ Hb (bqs_lt _ B1) Hm) as (x & P1 & P2 & P3 & P4).
      assert (length (bqueues (fst (pop_broadcast (h_bq h) s))) = length (bqueues s)) as HL by (by rewrite !length_refs, pop_broadcast_refs).
      assert (bq_live (deliver r (ToAll m) (fst (pop_broadcast (h_bq h) s))) b = bq_live s b) as ->.
      { by rewrite !blive_at, D1, !at_refs, pop_broadcast_refs. }
      assert (blog (deliver r (ToAll m) (fst (pop_broadcast (h_bq h) s))) = EvRecv r (ToAll m) :: match x with Some m2 => [EvBcast m2 (live s)] | None => [] end ++ blog s) as ->.
      { rewrite <-P3. unfold deliver, blog. cbn. by autorewrite with fr_log. }
      rewrite !bsum_at, D1, D4, HL, <-!bsum_at. specialize (P1 (ibm i) b).
      assert (hbqs (fst (pop_broadcast (h_bq h) s)) = hbqs s) as -> by (unfold hbqs; by rewrite P4).
      assert (r < length (hbqs s)) as Hrl. { unfold hbqs. rewrite fmap_length. by eapply lookup_lt_Some. }
      pose proof (Hlive b) as HLb. pose proof (Hlt1 b (length (bqueues s))) as HL1.
      assert (e_brc (hbqs s) b i (EvRecv r (ToAll m)) = isn b (h_bq h) * ibm i m) as Hrc.
      { unfold e_brc, hbqs. by rewrite list_lookup_fmap, Hh. }
      change (EvRecv r (ToAll m) :: ?l) with ([EvRecv r (ToAll m)] ++ l).
      rewrite !sum_list_with_app.
      assert (∀ (f : ev → nat) e, Σ f [e] = f e) as H1 by (intros; cbn; lia).
      assert (∀ e, Σ e (match x with Some m2 => [EvBcast m2 (live s)] | None => [] end) = match x with Some m2 => e (EvBcast m2 (live s)) | None => 0 end) as HX.
      { intros. destruct x; [apply H1|done]. }
      rewrite !HX, !H1, Hrc. change (e_bput b i (EvRecv r (ToAll m))) with 0. change (e_bc i (EvRecv r (ToAll m))) with 0.
      assert (match x with Some m2 => e_brc (hbqs s) b i (EvBcast m2 (live s)) | None => 0 end = 0) as -> by (by destruct x).
      assert (match x with Some m2 => e_bput b i (EvBcast m2 (live s)) | None => 0 end = Σ (isn b) (live s) * oB (ibm i) x) as -> by (destruct x; cbn; lia).
      assert (match x with Some m2 => e_bc i (EvBcast m2 (live s)) | None => 0 end = oB (ibm i) x) as -> by (destruct x; cbn; lia).
      split_and!.
      * intros r' x' [Hx|[Hx|Hx]%elem_of_app]%elem_of_app; [|by destruct x; [apply elem_of_list_singleton in Hx|apply elem_of_nil in Hx]|by eapply I1].
        apply elem_of_list_singleton in Hx. by injection Hx as -> ->.
      * intros Hbl. rewrite I2 by done. rewrite Hlt0 in HLb by done. nia.
      * lia.
      * intros Hbl. specialize (I4 Hbl). lia.
      * nia.
  - intros s Hr I Ho b i. specialize (I b i). unfold bsum, bq_get, bq_live, hbqs in *. rewrite free_blog. by autorewrite with fr_bqueues fr_hols.
Qed.

(** ** A broadcast is put into the queues at most once *)
Lemma try_takeA_cells c n cs ws cs' ws' r :
  try_take bm_prio n cs ws = (cs', ws', r) → Σ (bcell c) cs' + oB c (option_map fst r) = Σ (bcell c) cs.
Proof.
  revert cs ws; induction n as [|n IH]; intros cs ws; cbn [try_take].
  { intros [= <- <- <-]. cbn. lia. }
  destruct (find_remove bm_prio cs ws) as [w2 [k|]]; [|intros [= <- <- <-]; cbn; lia].
  unfold take_message. destruct (cs !! k) as [[[] [w m| |]]|] eqn:E; cbn.
  - intros [= <- <- <-]. cbn.
    pose proof (sum_insert (bcell c) _ _ _ (WC true WDelivered) E). cbn in *. lia.
  - intros H%IH. pose proof (sum_insert (bcell c) _ _ _ (WC true WDelivered) E). cbn in *. lia.
  - intros H%IH. pose proof (sum_insert (bcell c) _ _ _ (WC true WDelivered) E). cbn in *. lia.
  - by intros H%IH.
  - by intros H%IH.
  - by intros H%IH.
  - by intros H%IH.
Qed.
Lemma take_waitingA_sum c s : Σ (bcell c) (cellsA (fst (take_waitingA s))) + oB c (snd (take_waitingA s)) = Σ (bcell c) (cellsA s).
Proof.
  unfold take_waitingA. destruct (try_take _ _ _ _) as [[cs ws] r] eqn:E. apply (try_takeA_cells c) in E.
  destruct r as [[m w]|]; cbn [fst snd]; autorewrite with fr_cellsA; exact E.
Qed.
Lemma pop_bc i b s :
  Σ (bcell (ibm i)) (cellsA (fst (pop_broadcast b s))) + Σ (e_bc i) (log (fst (pop_broadcast b s))) = Σ (bcell (ibm i)) (cellsA s) + Σ (e_bc i) (log s).
Proof.
  destruct (pop_broadcast_cases b s) as [[_ ->]|(m' & h & Hh & Hm' & [[_ ->]|(_ & s3 & x & T & _ & ->)])]; [done|..].
  - unfold pop_put. prj. by autorewrite with fr_cellsA fr_log.
  - pose proof (take_waitingA_sum (ibm i) (pop_put b h s)) as HS.
    assert (log (fst (take_waitingA (pop_put b h s))) = log s) as HL by (unfold pop_put; autorewrite with fr_log; prj; by autorewrite with fr_log).
    rewrite T in HS, HL. cbn [fst snd] in HS, HL.
    assert (cellsA (pop_put b h s) = cellsA s) as HC by (unfold pop_put; prj; by autorewrite with fr_cellsA). rewrite HC in HS.
    destruct x as [m2|]; cbn [oB] in HS; [|rewrite HL; lia].
    rewrite send_broadcast_log, HL. autorewrite with fr_cellsA. cbn [sum_list_with e_bc]. lia.
Qed.
Definition f_pb (i : nat) (x : sfut) : nat := match sf_st x with SNew (PB m) _ => ibm i m | _ => 0 end.
Definition g_pb (i : nat) (u : micro) : nat :=
  match u with USendLd1 _ (PB m) _ | USendLd2 _ (PB m) _ | USendLock _ (PB m) _ => ibm i m | _ => 0 end.
Definition InvUB (s : state) : Prop := ∀ i,
  Σ (f_pb i) (sfs s) + Σ (bcell (ibm i)) (cellsA s) + msum (g_pb i) s + Σ (e_bc i) (log s) ≤ lt1 i (nbm s).
Lemma bcell_close c (l : list (wcell bmsg)) : Σ (bcell c) (close_cell <$> l) = 0.
Proof. induction l as [|[[] []] l IH]; simpl; done. Qed.
Lemma reach_ub s : reach s → InvUB s.
Proof.
  revert s. apply reach_inv; unfold InvUB.
  - intros c i. cbn. lia.
  - intros s o Hr I i. specialize (I i).
    do_api o ltac:(autorewrite with fr_sfs fr_cellsA fr_log fr_nbm).
    all: rewrite ?lt1_S in *; unfold ibm in *; cbn [bm_id] in *; try lia.
  - intros s t u rest s1 new Hr I Ht E Hthr i. pose proof (I i) as Ib.
    pose proof (msum_step (g_pb i) s t u rest new s1 Ht Hthr) as HM.
    pose proof (msum_head (g_pb i) s t u rest Ht) as HH.
    revert HM. generalize (msum (g_pb i) (set_thr (<[t:=new ++ rest]> (thr s1)) s1)). intros n HM.
    prj. clear Hthr.
    assert (∀ f, g_sf f u = 1 → at_ (f_pb i) (sfs s) f = 0) as Hb.
    { intros f Hf. destruct (busyF_at _ _ _ _ _ Hr Ht Hf) as (sf & H1 & H2).
      rewrite !(at_some _ _ _ _ H1). unfold f_pb. by rewrite H2. }
    destruct (reach_ws s Hr) as (_ & WA & _).
    do_exec u E HM ltac:(autorewrite with fr_sfs fr_cellsA fr_log fr_nbm).
    all: rewrite ?rx_shutdown_log0, ?rx_shutdown_cellsA, ?bcell_close by done.
    all: try (destruct (pop_unicast_spec s) as (x & _ & _ & ->); destruct x; cbn).
    all: try match goal with |- context [pop_broadcast ?b ?s] => pose proof (pop_bc i b s) end.
    all: try (unfold ibm in *; fin; done).
    all: tokb Hb g_sf; try (unfold ibm in *; fin; done).
    all: cbn [sum_list_with e_bc]; unfold ibm in *; cbn [bm_id]; rewrite ?lt1_S; lia.
  - intros s Hr I Ho i. rewrite (msum_eq _ s) by (autorewrite with fr_thr; done).
    destruct (reach_ws s Hr) as (_ & WA & _). specialize (I i).
    rewrite free_cellsA, bcell_close, free_log0 by done. autorewrite with fr_sfs fr_nbm. lia.
Qed.

(** ** The backlog *)
Definition lfold (s : state) (l : list nat) (n : nat) : nat := fold_left (λ n b, if bq_live s b then max n (length (bq_get s b)) else n) l n.
Lemma lfold_ge s l n : n ≤ lfold s l n.
Proof. revert n; induction l as [|b l IH]; intros n; simpl; [lia|]. etransitivity; [|apply IH]. case_match; lia. Qed.
Lemma lfold_elem s l n b : b ∈ l → bq_live s b = true → blen s b ≤ lfold s l n.
Proof.
  revert n; induction l as [|k l IH]; intros n; [by intros ?%elem_of_nil|]. intros [->|Hb]%elem_of_cons Hl; simpl.
  - rewrite Hl. etransitivity; [|apply lfold_ge]. unfold blen. lia.
  - by apply IH.
Qed.
Lemma lfold_le s l n m : n ≤ m → (∀ b, b ∈ l → bq_live s b = true → blen s b ≤ m) → lfold s l n ≤ m.
Proof.
  revert n; induction l as [|k l IH]; intros n Hn H; simpl; [done|]. apply IH; [|intros b Hb; apply H; by right].
  destruct (bq_live s k) eqn:E; [|done]. specialize (H k ltac:(left) E). unfold blen in H. lia.
Qed.
Lemma longest_elem s b : b ∈ bqs s → bq_live s b = true → blen s b ≤ longest_broadcast_queue s.
Proof. apply lfold_elem. Qed.
Lemma longest_le s m : (∀ b, b ∈ bqs s → bq_live s b = true → blen s b ≤ m) → longest_broadcast_queue s ≤ m.
Proof. intros H. apply lfold_le; [lia|done]. Qed.
Lemma longest_max s : longest_broadcast_queue s = 0 ∨ ∃ b, b ∈ bqs s ∧ bq_live s b = true ∧ blen s b = longest_broadcast_queue s.
Proof.
  unfold longest_broadcast_queue. change (lfold s (bqs s) 0 = 0 ∨ ∃ b, b ∈ bqs s ∧ bq_live s b = true ∧ blen s b = lfold s (bqs s) 0).
  assert (∀ l n, lfold s l n = n ∨ ∃ b, b ∈ l ∧ bq_live s b = true ∧ blen s b = lfold s l n) as H; [|apply H].
  induction l as [|k l IH]; intros n; [by left|]. simpl. destruct (bq_live s k) eqn:E.
  - destruct (IH (max n (length (bq_get s k)))) as [H|(b & Hb & Hl & H)].
    + rewrite H. destruct (decide (n < length (bq_get s k))); [right; exists k|left; lia]. split_and!; [left|done|unfold blen; lia].
    + right. exists b. split_and!; [by right|done|done].
  - destruct (IH n) as [H|(b & Hb & Hl & H)]; [by left|]. right. exists b. split_and!; [by right|done|done].
Qed.
Definition one_ (m : bmsg) : nat := 1.
Definition ordin (m : bmsg) : nat := match m with BM _ _ => 1 | BStop _ => 0 end.
Lemma blen_bsum s b : blen s b = bsum one_ s b.
Proof. unfold blen, bsum. induction (bq_get s b); simpl; [done|]. by f_equal. Qed.
Lemma bsum_le c d s b : (∀ m, c m ≤ d m) → bsum c s b ≤ bsum d s b.
Proof. intros H. by apply sum_le. Qed.
Lemma full_cap s c : cap s = Some c → broadcast_full s = (c <=? tail s).
Proof. unfold broadcast_full. by intros ->. Qed.
Definition InvT (s : state) : Prop :=
  (∀ b, b ∈ bqs s → bq_live s b = true → blen s b ≤ tail s) ∧
  (∀ b c, cap s = Some c → bsum ordin s b ≤ c).
Lemma T_eq s s' : bqueues s' = bqueues s → bqs s' = bqs s → tail s' = tail s → cap s' = cap s → InvT s → InvT s'.
Proof.
  intros H1 H2 H3 H4 [I1 I2]. split.
  - intros b. rewrite H2, blive_at, H1, <-blive_at, H3. unfold blen, bq_get. rewrite H1. apply I1.
  - intros b c. rewrite H4, bsum_at, H1, <-bsum_at. apply I2.
Qed.
Definition okB (s : state) : Prop := ∀ b, Σ (isn b) (bqs s) ≤ lt1 b (length (bqueues s)).
Lemma lt1_1 b n : lt1 b n ≤ 1.
Proof. unfold lt1. case_match; lia. Qed.
Lemma live_1 s b : okB s → Σ (isn b) (live s) ≤ 1.
Proof. intros H. rewrite live_sum. specialize (H b). pose proof (lt1_1 b (length (bqueues s))). destruct (bq_live s b); lia. Qed.
Lemma elem_live s b : b ∈ live s ↔ b ∈ bqs s ∧ bq_live s b = true.
Proof. unfold live. by rewrite elem_of_list_In, filter_In, <-elem_of_list_In. Qed.
Lemma send_T m s : okB s → (broadcast_full s = false ∨ ordin m = 0) → InvT s → InvT (send_broadcast m s).
Proof.
  intros HO Hm [I1 I2]. split.
  - intros b. rewrite sb_bqs, sb_live, sb_tail, blen_bsum, sb_sum by (by apply bqs_lt). intros [Hb Hl]%elem_live _.
    specialize (I1 b Hb Hl). rewrite blen_bsum in I1. pose proof (live_1 s b HO). unfold one_ at 2. lia.
  - intros b c. autorewrite with fr_cap. intros Hc. rewrite sb_sum by (by apply bqs_lt). specialize (I2 b c Hc).
    destruct Hm as [Hf| ->]; [|lia]. rewrite (full_cap _ _ Hc) in Hf. apply Nat.leb_gt in Hf.
    pose proof (live_1 s b HO) as HL1. destruct (decide (Σ (isn b) (live s) = 0)) as [->|Hz]; [lia|].
    assert (0 < Σ (isn b) (live s)) as Hz' by lia. apply isn_elem, elem_live in Hz' as [Hb Hl]. specialize (I1 b Hb Hl).
    pose proof (bsum_le ordin one_ s b ltac:(intros []; unfold one_; cbn; lia)) as HLe. rewrite blen_bsum in I1.
    assert (ordin m ≤ 1) by (destruct m; cbn; lia). nia.
Qed.
Lemma put_live b h s k : bq_live (pop_put b h s) k = bq_live s k.
Proof. by rewrite !blive_at, !at_refs, pop_put_refs. Qed.
Lemma pop_T b s : b < length (bqueues s) → okB s → InvT s → InvT (fst (pop_broadcast b s)).
Proof.
  intros Hb HO [I1 I2].
  assert (∀ m h, heap_pop bm_prio (bq_get s b) = Some (m, h) → InvT (pop_put b h s)) as HP.
  { intros m h Hh. split.
    - intros k. rewrite put_live, pop_put_bqs. intros Hk Hl.
      apply (longest_elem (bq_put b h s) k); [by autorewrite with fr_bqs|]. rewrite <-Hl. by rewrite !blive_at, !at_refs, bq_put_refs.
    - intros k c. unfold pop_put. prj. autorewrite with fr_cap. intros Hc. specialize (I2 k c Hc).
      etransitivity; [|exact I2]. change (bsum ordin (bq_put b h s) k ≤ bsum ordin s k). rewrite bsum_put by done.
      destruct (Nat.eqb_spec b k) as [->|]; [|done]. unfold bsum. rewrite (sum_pop _ _ _ _ _ Hh). lia. }
  destruct (pop_broadcast_cases b s) as [[_ ->]|(m' & h & Hh & Hm' & [[_ ->]|(Hf & s3 & x & _ & (Q1 & Q2 & Q3 & Q4 & Q5 & Q6) & ->)])]; [done|by eapply HP|].
  assert (InvT s3) as H3 by (eapply T_eq; [exact Q1|exact Q2|exact Q3|exact Q4|by eapply HP]).
  destruct x as [m2|]; [|done]. apply send_T; [| |done].
  - intros k. rewrite Q2, Q1, pop_put_bqs. unfold pop_put. prj. rewrite bq_put_len. apply HO.
  - left. rewrite <-Hf. unfold broadcast_full. by rewrite Q3, Q4.
Qed.
Lemma holder_lt s r h : reach s → hols s !! r = Some h → h_bq h < length (bqueues s).
Proof.
  intros Hr Hh. destruct (reach_bs s Hr) as (_ & _ & B3). rewrite Forall_forall in B3. apply B3. unfold hbqs. apply elem_of_list_fmap.
  exists h. split; [done|]. by eapply elem_of_list_lookup_2.
Qed.
Lemma reach_T s : reach s → InvT s.
Proof.
  revert s. apply reach_inv.
  - intros c. split.
    + intros b [->|?%elem_of_nil]%elem_of_cons _; [done|done].
    + intros [|[|b]] n _; cbn; lia.
  - intros s o Hr [I1 I2]. destruct (bapi o s Hr) as (H1 & H2 & H3 & H4 & H5 & H6 & H7 & H8). split.
    + intros b. rewrite H1, H2, H7. unfold blen. rewrite H5. apply I1.
    + intros b c. rewrite H3. unfold bsum. rewrite H5. apply I2.
  - intros s t u rest s1 new Hr I Ht E Hthr. destruct (reach_bs s Hr) as (B1 & B2 & B3).
    cut (InvT s1); [by apply T_eq|].
    destruct (bexec u s s1 new E) as [(Q1 & Q2 & Q3 & Q4 & Q5 & Q6)|[(k & ->)|[->|[->|[(f & m & k & -> & Hf & ->)|[->|(r & h & m & Hg & Hh & -> & Hm)]]]]]].
    + by eapply T_eq.
    + cbn in E. destruct (bqueues s !! k) as [q|] eqn:Eb; injection E as <- <-; [|done]. destruct I as [I1 I2]. split.
      * intros b. prj. rewrite blive_at, blen_bsum, bsum_at. prj. erewrite !at_insert by done. intros Hb. specialize (I1 b Hb).
        rewrite blen_bsum, bsum_at, blive_at in I1. destruct (Nat.eqb_spec k b) as [Ek|]; [|done]. subst k. rewrite (at_some _ _ _ _ Eb) in I1.
        rewrite (at_some _ _ _ _ Eb) in I1. cbn [bq_refs bq_heap]. intros Hl%Nat.ltb_lt. destruct (Nat.eqb_spec (bq_refs q) 1); [cbn; lia|].
        apply I1. apply Nat.ltb_lt. lia.
      * intros b c. prj. intros Hc. specialize (I2 b c Hc). rewrite bsum_at in *. prj. erewrite !at_insert by done.
        destruct (Nat.eqb_spec k b) as [Ek|]; [|done]. subst k. rewrite (at_some _ _ _ _ Eb) in I2. cbn. case_match; cbn; lia.
    + cbn in E. injection E as <- <-. destruct I as [I1 I2]. split.
      * intros b. prj. rewrite blive_at, blen_bsum, bsum_at. prj. rewrite !at_snoc. intros [Hb|Hb]%elem_of_app.
        -- specialize (I1 b Hb). rewrite blen_bsum, bsum_at, blive_at in I1. destruct (Nat.eqb_spec (length (bqueues s)) b); [cbn; lia|done].
        -- apply elem_of_list_singleton in Hb as ->. rewrite Nat.eqb_refl. cbn. lia.
      * intros b c. prj. intros Hc. specialize (I2 b c Hc). rewrite bsum_at in *. prj. rewrite at_snoc. case_match; cbn; lia.
    + cbn in E. injection E as <- <-. destruct I as [I1 I2].
      assert (bqueues (exec_rx_shutdown s) = bqueues s) as HB by (unfold exec_rx_shutdown; cbv zeta; by repeat (progress (prj; autorewrite with fr_bqueues))).
      split.
      * intros b Hb. exfalso. revert Hb. unfold exec_rx_shutdown. cbv zeta. repeat (progress (prj; autorewrite with fr_bqs)). by intros ?%elem_of_nil.
      * intros b c. rewrite bsum_at, HB, <-bsum_at. unfold exec_rx_shutdown. cbv zeta. repeat (progress (prj; autorewrite with fr_cap)). apply I2.
    + apply send_T; [done|by left|done].
    + cbn in E. injection E as <- <-. apply send_T; [done|by right|]. by eapply T_eq; [..|exact I].
    + destruct (deliver_same r (ToAll m) (fst (pop_broadcast (h_bq h) s))) as (D1 & D2 & D3 & D4 & D5 & D6).
      eapply T_eq; [exact D1|exact D2|exact D3|exact D6|]. apply pop_T; [by eapply holder_lt|done|done].
  - intros s Hr [I1 I2] Ho. split.
    + intros b Hb. exfalso. revert Hb. unfold free_chan. cbv zeta. prj. by intros ?%elem_of_nil.
    + intros b c. rewrite bsum_at. autorewrite with fr_bqueues fr_cap. rewrite <-bsum_at. apply I2.
Qed.
