(** Exactness of the broadcast tail as long as no lagging mailbox is dropped. *)
From stdpp Require Import base numbers list list_numbers.
From Coq Require Import Lia.
From Verif Require Import Prio Heap State Model HeapProofs Frame Lib InvBusy InvCount Effects InvMsg InvOne InvOne2 InvDisc
  InvWait InvWait2 InvHeap WaitSpec InvWs InvBlk InvSmall InvErr InvMsg2 InvBc.

(** ** Blocked broadcasts *)
Lemma take_waitingA_act s : wfA s → ∀ s' x, take_waitingA s = (s', x) →
  (x = None → noactA s') ∧ ∀ c, at_ c_act (cellsA s') c ≤ at_ c_act (cellsA s) c.
Proof.
  intros W s' x E. destruct (take_waitingA_cases s s' x W E) as [_ [(-> & H1 & H2 & _)|(c & m & w & -> & H1 & H2 & _)]].
  - unfold noactA in *. rewrite H2. split; [by intros|done].
  - split; [done|]. intros k. rewrite H2, (at_insert _ _ _ _ _ _ H1). case_match; cbn; lia.
Qed.
Lemma wfA_eq s s' : cellsA s' = cellsA s → wsA s' = wsA s → wfA s → wfA s'.
Proof. unfold wfA. by intros -> ->. Qed.
Lemma put_wfA b h s : wfA s → wfA (pop_put b h s).
Proof. apply wfA_eq; unfold pop_put; prj; by autorewrite with fr_cellsA fr_wsA. Qed.
Lemma put_cellsA b h s : cellsA (pop_put b h s) = cellsA s.
Proof. unfold pop_put. prj. by autorewrite with fr_cellsA. Qed.
Lemma pop_broadcast_act b s c : wfA s → at_ c_act (cellsA (fst (pop_broadcast b s))) c ≤ at_ c_act (cellsA s) c.
Proof.
  intros W. destruct (pop_broadcast_cases b s) as [[_ ->]|(m' & h & Hh & Hm' & [[_ ->]|(Hf & s3 & x & T & _ & ->)])]; [done|by rewrite put_cellsA|].
  destruct (take_waitingA_act _ (put_wfA b h s W) _ _ T) as [_ H]. rewrite put_cellsA in H. destruct x; autorewrite with fr_cellsA; apply H.
Qed.
Lemma exec_actA u s s1 new : reach s → exec u s = (s1, new) → 
  (∀ c, at_ c_act (cellsA s1) c ≤ at_ c_act (cellsA s) c) ∨ (∃ f m k, u = USendLock f (PB m) k ∧ broadcast_full s = true).
Proof.
  intros Hr E. destruct (reach_ws s Hr) as (_ & WA & _).
  exec_cases u E; try (right; by eauto 10); left; intros i; repeat (progress (prj; autorewrite with fr_cellsA)); try done.
  all: rewrite ?rx_shutdown_cellsA, ?noact_closed by done; try apply Nat.le_0_l; try (by apply pop_broadcast_act).
  all: erewrite at_insert by done; destruct (Nat.eqb_spec c i); [subst i|done]; ats; cbn; try destruct wc_alive; cbn; lia.
Qed.

(** ** Exactness *)
Definition InvL (s : state) : Prop :=
  (0 < rxc s → tail s ≤ longest_broadcast_queue s) ∧
  (0 < rxc s → ∀ c, 0 < at_ c_act (cellsA s) c → broadcast_full s = true).
Lemma longest_eq s s' : bqueues s' = bqueues s → bqs s' = bqs s → longest_broadcast_queue s' = longest_broadcast_queue s.
Proof. intros H1 H2. unfold longest_broadcast_queue, bq_live, bq_get. by rewrite H1, H2. Qed.
Lemma send_longest m s : okB s → live s ≠ [] → S (longest_broadcast_queue s) ≤ longest_broadcast_queue (send_broadcast m s).
Proof.
  intros HO Hl.
  assert (∀ b, b ∈ live s → S (blen s b) ≤ longest_broadcast_queue (send_broadcast m s)) as H.
  { intros b Hb. transitivity (blen (send_broadcast m s) b).
    - rewrite (blen_bsum s), (blen_bsum (send_broadcast m s)), sb_sum by (by apply bqs_lt). apply isn_elem in Hb. unfold one_ at 3. lia.
    - apply longest_elem; [by rewrite sb_bqs|]. rewrite sb_live. by apply elem_live in Hb as []. }
  destruct (longest_max s) as [->|(b & Hb & Hbl & <-)].
  - destruct (live s) as [|b l] eqn:E; [done|]. specialize (H b ltac:(left)). lia.
  - apply H. by apply elem_live.
Qed.
Lemma pop_longest b m h s : b < length (bqueues s) → heap_pop bm_prio (bq_get s b) = Some (m, h) →
  longest_broadcast_queue s ≤ S (longest_broadcast_queue (pop_put b h s)).
Proof.
  intros Hb Hh. apply longest_le. intros k Hk Hl. transitivity (S (blen (pop_put b h s) k)).
  - rewrite (blen_bsum s), (blen_bsum (pop_put b h s)). change (bsum one_ (pop_put b h s) k) with (bsum one_ (bq_put b h s) k). rewrite bsum_put by done.
    destruct (Nat.eqb_spec b k) as [->|]; [|lia]. unfold bsum. rewrite (sum_pop _ _ _ _ _ Hh). unfold one_ at 1. lia.
  - apply le_n_S, longest_elem; [by rewrite pop_put_bqs|by rewrite put_live].
Qed.
Lemma pop_L b s : wfA s → okB s → b < length (bqueues s) → tail s ≤ longest_broadcast_queue s →
  (∀ c, 0 < at_ c_act (cellsA s) c → broadcast_full s = true) → (∀ x, EvBcast x [] ∉ log (fst (pop_broadcast b s))) →
  let s' := fst (pop_broadcast b s) in
  tail s' ≤ longest_broadcast_queue s' ∧ ∀ c, 0 < at_ c_act (cellsA s') c → broadcast_full s' = true.
Proof.
  intros W HO Hb I1 I2. cbv zeta.
  destruct (pop_broadcast_cases b s) as [[_ ->]|(m' & h & Hh & Hm' & [[Hf ->]|(Hf & s3 & x & T & (Q1 & Q2 & Q3 & Q4 & Q5 & Q6) & ->)])].
  - done.
  - intros _. split; [|done]. done.
  - destruct (take_waitingA_act _ (put_wfA b h s W) _ _ T) as [T1 T2]. rewrite put_cellsA in T2.
    pose proof (pop_longest b m' h s Hb Hh) as HP. rewrite <-(longest_eq (pop_put b h s) s3) in HP by done.
    assert (tail s3 = longest_broadcast_queue s3) as T3 by (rewrite Q3, (longest_eq (pop_put b h s)) by done; done).
    assert (cap s3 = cap s) as C3 by (rewrite Q4; unfold pop_put; prj; by autorewrite with fr_cap).
    destruct x as [m2|].
    + rewrite send_broadcast_log. intros Hn.
      assert (live s3 ≠ []) as Hl. { intros El. apply (Hn m2). rewrite <-El. left. }
      assert (okB s3) as HO3. { intros k. rewrite Q2, Q1, pop_put_bqs. unfold pop_put. prj. rewrite bq_put_len. apply HO. }
      split.
      * rewrite sb_tail. pose proof (send_longest m2 s3 HO3 Hl). lia.
      * intros c. autorewrite with fr_cellsA. intros Hc. specialize (T2 c). specialize (I2 c ltac:(lia)). unfold broadcast_full in *.
        autorewrite with fr_cap. rewrite C3, sb_tail. destruct (cap s); [|done]. apply Nat.leb_le in I2. apply Nat.leb_le. lia.
    + intros _. split; [lia|]. intros c Hc. rewrite (T1 eq_refl c) in Hc. lia.
Qed.
Lemma L_exec s t u rest s1 new : reach s → InvL s → thr s !! t = Some (u :: rest) → exec u s = (s1, new) →
  (∀ b q, u = UBqRel b → bqueues s !! b = Some q → bq_refs q = 1 → bq_heap q = []) →
  (∀ x, EvBcast x [] ∉ log s1) → InvL s1.
Proof.
  intros Hr [I1 I2] Ht E Hq Hn. destruct (reach_bs s Hr) as (B1 & B2 & B3). destruct (reach_ws s Hr) as (_ & WA & _).
  assert (0 < rxc s1 → 0 < rxc s) as Hx.
  { intros H1. destruct (decide (rxc s = 0)) as [H0|]; [|lia]. pose proof (rxc0_exec s u H0) as H. rewrite E in H. cbn in H. lia. }
  assert (∀ s0, s1 = s0 → tail s ≤ tail s0 → cap s0 = cap s → (∀ c, at_ c_act (cellsA s0) c ≤ at_ c_act (cellsA s) c) →
    0 < rxc s → ∀ c, 0 < at_ c_act (cellsA s0) c → broadcast_full s0 = true) as Hfull.
  { intros s0 _ H1 H2 H3 H4 c Hc. specialize (H3 c). specialize (I2 H4 c ltac:(lia)). unfold broadcast_full in *. rewrite H2.
    destruct (cap s); [|done]. apply Nat.leb_le in I2. apply Nat.leb_le. lia. }
  pose proof (exec_actA u s s1 new Hr E) as Hact.
  destruct (bexec u s s1 new E) as [(Q1 & Q2 & Q3 & Q4 & Q5 & Q6)|[(k & ->)|[->|[->|[(f & m & k & -> & Hf & ->)|[->|(r & h & m & Hg & Hh & -> & Hm)]]]]]].
  - split.
    + intros H. rewrite Q3, (longest_eq s) by done. by apply I1, Hx.
    + intros H. destruct Hact as [Ha|(f & m & k & -> & Hfu)].
      * apply (Hfull s1); [done|lia|done|done|by apply Hx].
      * intros c _. unfold broadcast_full in *. by rewrite Q3, Q4.
  - destruct Hact as [Hact|(? & ? & ? & ? & _)]; [|done].
    cbn in E. destruct (bqueues s !! k) as [q|] eqn:Eb; injection E as <- <-; [|done]. specialize (Hq k q ltac:(done) ltac:(done)).
    split; [|intros H; apply Hfull; prj; try done; by apply Hx].
    intros H. prj. etransitivity; [by apply I1, Hx|]. apply longest_le. intros b Hb Hl.
    destruct (decide (blen s b = 0)) as [|Hz]; [lia|].
    set (s' := set_bqueues _ s).
    assert (blen s' b = blen s b ∧ bq_live s' b = true) as [E1 E2].
    { unfold s'. rewrite blive_at in Hl. rewrite (blen_at s b) in Hz |- *. rewrite (blen_at (set_bqueues _ s) b), blive_at. prj. erewrite !at_insert by done. destruct (Nat.eqb_spec k b) as [->|]; [|done].
      rewrite (at_some _ _ _ _ Eb) in Hl. rewrite (at_some _ _ _ _ Eb) in Hz. rewrite (at_some _ _ _ _ Eb). cbn [bq_refs bq_heap].
      destruct (Nat.eqb_spec (bq_refs q) 1) as [E1|]; [rewrite (Hq E1) in Hz; done|]. split; [done|]. apply Nat.ltb_lt in Hl. apply Nat.ltb_lt. lia. }
    rewrite <-E1. by apply longest_elem.
  - destruct Hact as [Hact|(? & ? & ? & ? & _)]; [|done].
    cbn in E. injection E as <- <-. split; [|intros H; apply Hfull; prj; try done; by apply Hx].
    intros H. prj. etransitivity; [by apply I1, Hx|]. apply longest_le. intros b Hb Hl.
    assert (b < length (bqueues s)) as Hlt by (pose proof (bqs_lt s B1) as HF; rewrite Forall_forall in HF; by apply HF).
    set (s' := set_hols _ _).
    assert (blen s' b = blen s b ∧ bq_live s' b = true) as [E1 E2].
    { unfold s'. rewrite blive_at in Hl. rewrite (blen_at s b). rewrite (blen_at (set_hols _ _) b), blive_at. prj. rewrite !at_snoc. destruct (Nat.eqb_spec (length (bqueues s)) b); [lia|done]. }
    rewrite <-E1. apply longest_elem; [|done]. unfold s'. prj. apply elem_of_app. by left.
  - assert (rxc s = 0) as H0. { apply (reach_rs s Hr). pose proof (msum_head g_rs _ _ _ _ Ht). cbn in *. lia. }
    split; intros H; specialize (Hx H); lia.
  - rewrite send_broadcast_log in Hn. assert (live s ≠ []) as Hl. { intros El. apply (Hn m). rewrite <-El. left. }
    destruct Hact as [Hact|(? & ? & ? & ? & ?)]; [|congruence].
    split.
    + intros H. rewrite sb_tail. pose proof (send_longest m s B1 Hl). specialize (I1 (Hx H)). lia.
    + intros H. apply Hfull; [done|rewrite sb_tail; lia|by autorewrite with fr_cap|done|by apply Hx].
  - cbn in E. injection E as <- <-. rewrite send_broadcast_log in Hn.
    assert (live s ≠ []) as Hl. { intros El. apply (Hn (BStop (nbm s))). change (List.filter _ _) with (live s). rewrite El. left. }
    destruct Hact as [Hact|(? & ? & ? & ? & ?)]; [|congruence].
    split.
    + intros H. rewrite sb_tail. pose proof (send_longest (BStop (nbm s)) (set_nbm (S (nbm s)) s) B1 Hl) as H1. specialize (I1 (Hx H)). change (longest_broadcast_queue (set_nbm (S (nbm s)) s)) with (longest_broadcast_queue s) in H1. prj. lia.
    + intros H. apply Hfull; [done|rewrite sb_tail; prj; lia|by autorewrite with fr_cap|done|by apply Hx].
  - destruct (deliver_same r (ToAll m) (fst (pop_broadcast (h_bq h) s))) as (D1 & D2 & D3 & D4 & D5 & D6).
    assert (cellsA (deliver r (ToAll m) (fst (pop_broadcast (h_bq h) s))) = cellsA (fst (pop_broadcast (h_bq h) s))) as D7.
    { unfold deliver. prj. by autorewrite with fr_cellsA. }
    assert (h_bq h < length (bqueues s)) as Hb by (by eapply holder_lt).
    assert (0 < rxc s → tail (fst (pop_broadcast (h_bq h) s)) ≤ longest_broadcast_queue (fst (pop_broadcast (h_bq h) s)) ∧
      ∀ c, 0 < at_ c_act (cellsA (fst (pop_broadcast (h_bq h) s))) c → broadcast_full (fst (pop_broadcast (h_bq h) s)) = true) as HP.
    { intros H. apply pop_L; [done|done|done|by apply I1|by apply I2|]. intros x He. apply (Hn x). unfold deliver. prj. right. by autorewrite with fr_log. }
    split.
    + intros H. rewrite D3, (longest_eq _ _ D1 D2). by apply HP, Hx.
    + intros H c. rewrite D7. unfold broadcast_full. rewrite D3, D6. apply HP, Hx, H.
Qed.
Lemma L_init c : InvL (init c).
Proof. split; cbn; [lia|]. intros _ i. unfold at_. rewrite lookup_nil. lia. Qed.
Lemma L_api s o : reach s → InvL s → InvL (api o s).
Proof.
  intros Hr [I1 I2]. destruct (bapi o s Hr) as (H1 & H2 & H3 & H4 & H5 & H6 & H7 & H8).
  assert (0 < rxc (api o s) → 0 < rxc s) as Hx.
  { intros H. destruct (decide (rxc s = 0)) as [E|]; [|lia]. pose proof (rxc0_api s o Hr E). lia. }
  assert (longest_broadcast_queue (api o s) = longest_broadcast_queue s) as HL.
  { unfold longest_broadcast_queue. rewrite H1. clear - H5 H7. generalize 0. induction (bqs s) as [|b l IH]; intros n; simpl; [done|]. rewrite H5, H7. apply IH. }
  assert (cellsA (api o s) = cellsA s) as HC.
  { destruct o; cbn [api]; repeat (dgoal; try done); cbv zeta; unfold add_addr; repeat dgoal;
        repeat (progress (prj; autorewrite with fr_cellsA)); done. }
  split.
  - rewrite H2, HL. intros H. by apply I1, Hx.
  - unfold broadcast_full. rewrite HC, H2, H3. intros H. by apply I2, Hx.
Qed.
Lemma L_free s : reach s → chan_owned s = false → InvL (free_chan s).
Proof. intros Hr Ho. pose proof (owned0_rx s Hr Ho). split; autorewrite with fr_rxc; lia. Qed.
