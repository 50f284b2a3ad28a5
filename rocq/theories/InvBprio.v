(** The priority a broadcast carries is the last one set. *)
From stdpp Require Import base numbers list list_numbers.
From Coq Require Import Lia.
From Verif Require Import Prio Heap State Model HeapProofs Frame Lib InvBusy InvCount Effects InvMsg InvMsg2
  InvHeap InvOne InvOne2 InvDisc InvFut InvCell WaitSpec InvWs Mono Events InvErr InvBc Spec Bridge FinalE FinalF Spec2.

Definition f_b (c : bmsg → nat) (x : sfut) : nat := match sf_st x with SNew (PB m) _ => c m | _ => 0 end.
Definition g_b (c : bmsg → nat) (u : micro) : nat :=
  match u with USendLd1 _ (PB m) _ | USendLd2 _ (PB m) _ | USendLock _ (PB m) _ => c m | _ => 0 end.
Definition e_b (c : bmsg → nat) (e : ev) : nat := match e with EvBcast m _ => c m | _ => 0 end.
Definition h_b (c : bmsg → nat) (h : holder) : nat :=
  match h_st h with HMsg (ToAll m) | HDispNew (ToAll m) | HRun (ToAll m) => c m | _ => 0 end.
Definition e_rb (c : bmsg → nat) (e : ev) : nat := match e with EvRecv _ (ToAll m) | EvHandle _ (ToAll m) => c m | _ => 0 end.
(** Weighted copies of broadcasts before and after they are put into the queues. *)
Definition PR (c : bmsg → nat) (s : state) : nat := Σ (f_b c) (sfs s) + Σ (bcell c) (cellsA s) + msum (g_b c) s + Σ (e_b c) (log s).
Definition PO (c : bmsg → nat) (s : state) : Prop := (∀ b, bsum c s b = 0) ∧ Σ (h_b c) (hols s) + Σ (e_rb c) (log s) = 0.

Lemma pop_bcc c b s :
  Σ (bcell c) (cellsA (fst (pop_broadcast b s))) + Σ (e_b c) (log (fst (pop_broadcast b s))) = Σ (bcell c) (cellsA s) + Σ (e_b c) (log s).
Proof.
  destruct (pop_broadcast_cases b s) as [[_ ->]|(m' & h & Hh & Hm' & [[_ ->]|(_ & s3 & x & T & _ & ->)])]; [done|..].
  - unfold pop_put. prj. by autorewrite with fr_cellsA fr_log.
  - pose proof (take_waitingA_sum c (pop_put b h s)) as HS.
    assert (log (fst (take_waitingA (pop_put b h s))) = log s) as HL by (unfold pop_put; autorewrite with fr_log; prj; by autorewrite with fr_log).
    rewrite T in HS, HL. cbn [fst snd] in HS, HL.
    assert (cellsA (pop_put b h s) = cellsA s) as HC by (unfold pop_put; prj; by autorewrite with fr_cellsA). rewrite HC in HS.
    destruct x as [m2|]; cbn [oB] in HS; [|rewrite HL; lia].
    rewrite send_broadcast_log, HL. autorewrite with fr_cellsA. cbn [sum_list_with e_b]. lia.
Qed.
Lemma exec_PR c s t u rest s1 new : reach s → (∀ j, c (BStop j) = 0) → PR c s = 0 → thr s !! t = Some (u :: rest) → exec u s = (s1, new) → thr s1 = thr s →
  PR c (set_thr (<[t := new ++ rest]> (thr s1)) s1) = 0.
Proof.
  intros Hr Hc I Ht E Hthr. unfold PR in *.
  pose proof (msum_step (g_b c) s t u rest new s1 Ht Hthr) as HM.
  pose proof (msum_head (g_b c) s t u rest Ht) as HH.
  revert HM. generalize (msum (g_b c) (set_thr (<[t:=new ++ rest]> (thr s1)) s1)). intros n HM.
  prj. clear Hthr.
  destruct (reach_ws s Hr) as (_ & WA & _).
  do_exec u E HM ltac:(autorewrite with fr_sfs fr_cellsA fr_log fr_nbm).
  all: rewrite ?rx_shutdown_log0, ?rx_shutdown_cellsA, ?bcell_close by done.
  all: try (destruct (pop_unicast_spec s) as (x & _ & _ & ->); destruct x; cbn).
  all: try match goal with |- context [pop_broadcast ?b ?s] => pose proof (pop_bcc c b s) end.
  all: try (fin; done).
  cbn [sum_list_with e_b]. rewrite Hc. lia.
Qed.
Lemma api_PR c s o : (∀ j w, ¬ sets_bprio s o j w) → PR c s = 0 → PR c (api o s) = 0.
Proof.
  intros H1 I. unfold PR in *.
  do_api o ltac:(autorewrite with fr_sfs fr_cellsA fr_log).
  all: exfalso; eapply H1; first [left; eexists _, _; split_and!; [done|eassumption|done..]|right; eexists _, _, _, _; split_and!; [done|eassumption|done..]].
Qed.
Lemma free_PR c s : reach s → PR c s = 0 → PR c (free_chan s) = 0.
Proof.
  unfold PR. intros Hr I. rewrite (msum_eq _ s) by (autorewrite with fr_thr; done).
  destruct (reach_ws s Hr) as (_ & WA & _).
  rewrite free_cellsA, bcell_close, free_log0 by done. autorewrite with fr_sfs. lia.
Qed.

Lemma api_PO c s o : reach s → PO c s → PO c (api o s).
Proof.
  intros Hr [I1 I2]. split.
  - intros b. destruct (bapi o s Hr) as (_ & _ & _ & _ & H & _). unfold bsum. rewrite H. apply I1.
  - do_api o ltac:(autorewrite with fr_hols fr_log).
    pose proof (sum_lookup (h_b c) _ _ _ Em) as HL. change (c (BM id n) ≤ Σ (h_b c) (hols s)) in HL. lia.
Qed.
Lemma free_PO c s : PO c s → PO c (free_chan s).
Proof.
  intros [I1 I2]. split.
  - intros b. specialize (I1 b). unfold bsum, bq_get in *. by autorewrite with fr_bqueues.
  - rewrite free_log0 by done. by autorewrite with fr_hols.
Qed.
Lemma pop_erb c b s : Σ (e_rb c) (log (fst (pop_broadcast b s))) = Σ (e_rb c) (log s).
Proof.
  destruct (pop_broadcast_cases b s) as [[_ ->]|(m' & h & Hh & Hm' & [[_ ->]|(_ & s3 & x & T & _ & ->)])]; [done|..].
  - unfold pop_put. prj. by autorewrite with fr_log.
  - assert (log (fst (take_waitingA (pop_put b h s))) = log s) as HL by (unfold pop_put; autorewrite with fr_log; prj; by autorewrite with fr_log).
    rewrite T in HL. cbn [fst] in HL. destruct x as [m2|]; [|by rewrite HL]. by rewrite send_broadcast_log, HL.
Qed.
Lemma exec_PO c s t u rest s1 new : reach s → PO c s → thr s !! t = Some (u :: rest) → exec u s = (s1, new) → thr s1 = thr s →
  Σ (e_b c) (log s1) = 0 → PO c (set_thr (<[t := new ++ rest]> (thr s1)) s1).
Proof.
  intros Hr [I1 I2] Ht E Hthr HE.
  destruct (reach_bs s Hr) as (B1 & B2 & B3).
  assert (∀ m l, Σ (e_b c) (blog s1) = 0 → EvBcast m l ∈ blog s1 → c m = 0) as HC.
  { intros m l H0 Hm. pose proof (sum_elem (e_b c) _ _ Hm) as H. cbn in H. lia. }
  assert (Σ (e_b c) (blog s1) = 0) as HE1.
  { apply sum_zero. intros e He. unfold blog in He. rewrite elem_of_list_In, filter_In, <-elem_of_list_In in He.
    pose proof (sum_elem (e_b c) _ _ (proj1 He)). lia. }
  specialize (λ m l, HC m l HE1).
  enough ((∀ b, bsum c s1 b = 0) ∧ Σ (h_b c) (hols s1) + Σ (e_rb c) (log s1) = 0) by done. split.
  - intros b. specialize (I1 b).
    destruct (bexec u s s1 new E) as [(Q1 & Q2 & Q3 & Q4 & Q5 & Q6)|[(k & ->)|[->|[->|[(f & m & k & -> & Hf & ->)|[->|(r & h & m & Hg & Hh & -> & Hm)]]]]]].
    + by rewrite bsum_at, Q1, <-bsum_at.
    + cbn in E. destruct (bqueues s !! k) as [q|] eqn:Eb; injection E as <- <-; [|done].
      rewrite !bsum_at in *. prj. erewrite !at_insert by done. destruct (Nat.eqb_spec k b) as [->|]; [|done].
      rewrite (at_some _ _ _ _ Eb) in I1. cbn. by case_match.
    + cbn in E. injection E as <- <-. rewrite !bsum_at in *. prj. rewrite at_snoc. by case_match.
    + cbn in E. injection E as <- <-. rewrite !bsum_at in *. unfold exec_rx_shutdown. cbv zeta. by repeat (progress (prj; autorewrite with fr_bqueues)).
    + rewrite sb_sum by (by apply bqs_lt). rewrite I1, (HC m (live s)); [lia|]. rewrite sb_blog. by left.
    + cbn in E. injection E as <- <-. rewrite sb_sum by (by apply bqs_lt). change (bsum c (set_nbm (S (nbm s)) s) b) with (bsum c s b).
      rewrite I1, (HC _ (live (set_nbm (S (nbm s)) s))); [lia|]. rewrite sb_blog. by left.
    + destruct (deliver_same r (ToAll m) (fst (pop_broadcast (h_bq h) s))) as (D1 & _).
      assert (h_bq h < length (bqueues s)) as Hb.
      { rewrite Forall_forall in B3. apply B3. unfold hbqs. apply elem_of_list_fmap. exists h. split; [done|]. by eapply elem_of_list_lookup_2. }
      destruct (pop_eff _ _ _ Hb (bqs_lt _ B1) Hm) as (x & P1 & P2 & P3 & P4).
      rewrite bsum_at, D1, <-bsum_at. specialize (P1 c b). enough (oB c x = 0) by nia. destruct x as [m2|]; [|done]. cbn.
      apply (HC m2 (live s)). assert (blog (deliver r (ToAll m) (fst (pop_broadcast (h_bq h) s))) = EvRecv r (ToAll m) :: blog (fst (pop_broadcast (h_bq h) s))) as ->.
      { unfold deliver, blog. cbn. by autorewrite with fr_log. }
      rewrite P3. right. by left.
  - assert (∀ b m, snd (pop_broadcast b s) = Some m → c m = 0) as HP.
    { intros b m Hm. destruct (pop_broadcast_cases b s) as [[H _]|(m' & h & Hh & Hm' & _)]; [congruence|].
      rewrite Hm in Hm'. injection Hm' as <-. specialize (I1 b). unfold bsum in I1. rewrite (sum_pop _ _ _ _ _ Hh) in I1. lia. }
    assert (0 + 0 = 0) as HM by done. clear HC HE HE1 B1 B2 B3 I1 Hthr.
    do_exec u E HM ltac:(autorewrite with fr_hols fr_log).
    all: try (fin; done).
    all: rewrite ?rx_shutdown_log0 by done.
    all: try (destruct (pop_unicast_spec s) as (x & _ & _ & ->); destruct x; cbn).
    all: try (fin; done).
    all: cbn [sum_list_with e_rb]; rewrite pop_erb.
    all: try match goal with H : snd (pop_broadcast _ _) = Some ?m |- _ => pose proof (HP _ _ H) end.
    all: try match goal with H : _ + at_ _ _ _ = _ |- _ => rewrite !(at_some _ _ _ _ Em) in H; unfold h_b in H at 3; cbn in H end; lia.
Qed.

Lemma reach_PO s : reach s → ∀ i, Σ (e_bc i) (log s) = 0 → PO (ibm i) s.
Proof.
  revert s. apply (reach_inv (λ s, ∀ i, Σ (e_bc i) (log s) = 0 → PO (ibm i) s)).
  - intros c i _. split; [|done]. intros [|b]; done.
  - intros s o Hr I i H. apply api_PO, I; [done|]. destruct (api_logx o s) as [k Hk]. rewrite Hk, sum_list_with_app in H. lia.
  - intros s t u rest s1 new Hr I Ht E Hthr i H. eapply exec_PO; eauto. apply I. destruct (exec_logx _ _ _ _ E) as [k Hk].
    revert H. prj. rewrite Hk, sum_list_with_app. lia.
  - intros s Hr I Ho i H. apply free_PO, I. destruct (free_logx s) as [k Hk]. rewrite Hk, sum_list_with_app in H. lia.
Qed.

(** All copies. *)
Definition none (c : bmsg → nat) (s : state) : Prop := PR c s = 0 ∧ PO c s.
Lemma PR_le c d s : (∀ m, c m ≤ d m) → PR c s ≤ PR d s.
Proof.
  intros H. unfold PR.
  assert (Σ (f_b c) (sfs s) ≤ Σ (f_b d) (sfs s)). { apply sum_le. intros x. unfold f_b. repeat case_match; auto. }
  assert (Σ (bcell c) (cellsA s) ≤ Σ (bcell d) (cellsA s)). { apply sum_le. intros x. unfold bcell. repeat case_match; auto. }
  assert (msum (g_b c) s ≤ msum (g_b d) s). { apply msum_le. intros x. unfold g_b. repeat case_match; auto. }
  assert (Σ (e_b c) (log s) ≤ Σ (e_b d) (log s)). { apply sum_le. intros x. unfold e_b. repeat case_match; auto. }
  lia.
Qed.
Lemma PO_le c d s : (∀ m, c m ≤ d m) → PO d s → PO c s.
Proof.
  intros H [I1 I2]. split.
  - intros b. specialize (I1 b). unfold bsum in *. assert (Σ c (bq_get s b) ≤ Σ d (bq_get s b)) by (by apply sum_le). lia.
  - assert (Σ (h_b c) (hols s) ≤ Σ (h_b d) (hols s)). { apply sum_le. intros x. unfold h_b. repeat case_match; auto. }
    assert (Σ (e_rb c) (log s) ≤ Σ (e_rb d) (log s)). { apply sum_le. intros x. unfold e_rb. repeat case_match; auto. }
    lia.
Qed.
Lemma PR_ub i s : reach s → PR (ibm i) s ≤ lt1 i (nbm s).
Proof. intros Hr. exact (reach_ub s Hr i). Qed.
(** A step that sets no priority of a broadcast creates no copy. *)
Lemma none_collect c s : reach s → none c s → none c (collect s).
Proof. intros Hr [H1 H2]. unfold collect. destruct (chan_owned s); [done|]. split; [by apply free_PR|by apply free_PO]. Qed.
Lemma none_step c s o : reach s → (∀ j, c (BStop j) = 0) →
  (∀ j w, ¬ sets_bprio s o j w) → none c s → none c (step s o).
Proof.
  intros Hr Hc H1 [I1 I2].
  unfold step.
  destruct o as [| | | | | | | | | | | | | | | | | | | | | | | | | | |t].
  all: try (apply none_collect; [by constructor|]; split; [by apply api_PR|by apply api_PO]).
  apply none_collect; [by constructor|]. unfold do_step. destruct (thr s !! t) as [[|u rest]|] eqn:Ht; [done| |done].
  destruct (exec u s) as [s1 new] eqn:E. pose proof (exec_thr u s) as Hthr. rewrite E in Hthr. cbn in Hthr.
  pose proof (exec_PR c s t u rest s1 new Hr Hc I1 Ht E Hthr) as HP. split; [done|]. eapply exec_PO; eauto. unfold PR in HP. revert HP. prj. lia.
Qed.
Definition ind (i : nat) (n : N) (m : bmsg) : nat := match m with BM j k => if N.eqb k n then isn i j else 0 | BStop _ => 0 end.
Lemma ind_le i n m : ind i n m ≤ ibm i m.
Proof. destruct m as [j k|j]; cbn; [|lia]. unfold ibm. cbn. case_match; lia. Qed.
Lemma ind_self i n : ind i n (BM i n) = 1.
Proof. cbn. rewrite N.eqb_refl. unfold isn. by rewrite Nat.eqb_refl. Qed.
Lemma ind_inv i n j k : ind i n (BM j k) ≠ 0 → j = i ∧ k = n.
Proof. cbn. destruct (N.eqb_spec k n) as [->|]; [|done]. unfold isn. by destruct (Nat.eqb_spec j i). Qed.
Lemma exists_not_none s i v : exists_bcast_as s i v → ¬ none (ind i v) s.
Proof.
  intros H [I1 [I2 I3]]. unfold PR in I1. pose proof (ind_self i v) as H1.
  destruct H as [(f & x & k & Hf & Hs)|[(c & w & Hc)|[(b & q & Hb & Hq)|[(r & h & Hh & Hs)|[(r & He)|(qs & He)]]]]].
  - pose proof (sum_lookup (f_b (ind i v)) _ _ _ Hf) as H. unfold f_b in H at 1. rewrite Hs in H. lia.
  - pose proof (sum_lookup (bcell (ind i v)) _ _ _ Hc) as H. unfold bcell in H at 1. lia.
  - specialize (I2 b). rewrite bsum_at, (at_some _ _ _ _ Hb) in I2. pose proof (sum_elem (ind i v) _ _ Hq) as H. lia.
  - pose proof (sum_lookup (h_b (ind i v)) _ _ _ Hh) as H. unfold h_b in H at 1. destruct Hs as [Hs|[Hs|Hs]]; rewrite Hs in H; lia.
  - destruct He as [He|He]; pose proof (sum_elem (e_rb (ind i v)) _ _ He) as H; unfold e_rb in H at 1; lia.
  - pose proof (sum_elem (e_b (ind i v)) _ _ He) as H. unfold e_b in H at 1. lia.
Qed.
(** A broadcast that was not yet polled is nowhere else. *)
Lemma fresh_none i s : reach s → PR (ibm i) s = 0 → none (ibm i) s.
Proof.
  intros Hr H. split; [done|]. apply reach_PO; [done|]. unfold PR in H. change (e_bc i) with (e_b (ibm i)). lia.
Qed.
Lemma none_sub i n s : none (ibm i) s → none (ind i n) s.
Proof. intros [H1 H2]. split; [|by eapply PO_le, H2; apply ind_le]. pose proof (PR_le (ind i n) (ibm i) s (ind_le i n)). lia. Qed.
Lemma sets_none s o i v n : reach s → sets_bprio s o i v → ¬ none (ind i n) (step s o) → n = v.
Proof.
  intros Hr Hs Hn. destruct (decide (n = v)) as [|Hv]; [done|]. exfalso. apply Hn. clear Hn.
  destruct Hs as [(a & x & -> & Ha & Hl & -> & ->)|(f & x & b & k & -> & Hf & Hl & Hst & <-)].
  - unfold step. apply none_collect; [by constructor|].
    assert (none (ind (nbm s) n) s) as [N1 N2].
    { apply none_sub, fresh_none; [done|]. pose proof (PR_ub (nbm s) s Hr) as H. unfold lt1 in H. rewrite Nat.ltb_irrefl in H. lia. }
    split; [|by apply api_PO]. cbn [api]. rewrite Ha. destruct x as [k lk []]; [|done]. unfold PR in *. prj.
    rewrite (msum_eq _ s) by (by destruct k). rewrite sum_snoc. unfold f_b at 2. cbn [sf_st]. 
    assert (ind (nbm s) n (BM (nbm s) 0) = 0) as ->. { destruct (decide (ind (nbm s) n (BM (nbm s) 0) = 0)) as [|[_ H]%ind_inv]; [done|congruence]. }
    destruct k; prj; lia.
  - unfold step. apply none_collect; [by constructor|].
    pose proof (PR_ub (bm_id b) s Hr) as HU. pose proof (lt1_le (bm_id b) (nbm s)) as HU1.
    assert (∀ st c, st = SNew (PB (BM (bm_id b) v)) k ∨ st = SDone → PR c (put_sf f (SF st (sf_mode x) true (sf_wk x)) s) + c b = PR c s + match st with SDone => 0 | _ => c (BM (bm_id b) v) end) as HV.
    { intros st c Hst'. unfold PR. prj. rewrite (msum_eq _ s) by done. pose proof (sum_insert (f_b c) _ _ _ (SF st (sf_mode x) true (sf_wk x)) Hf) as H.
      unfold f_b in H at 2 4. rewrite Hst in H. cbn [sf_st] in H. destruct Hst' as [->| ->]; lia. }
    assert (ibm (bm_id b) b = 1) as E1 by (unfold ibm, isn; by rewrite Nat.eqb_refl).
    pose proof (HV SDone (ibm (bm_id b)) (or_intror eq_refl)) as H1. rewrite E1 in H1.
    assert (PO (ibm (bm_id b)) s) as HPO.
    { apply reach_PO; [done|]. pose proof (sum_lookup (f_b (ibm (bm_id b))) _ _ _ Hf) as H. unfold f_b in H at 1. rewrite Hst, E1 in H.
      unfold PR in HU. change (e_bc (bm_id b)) with (e_b (ibm (bm_id b))). lia. }
    split; [|apply api_PO; [done|]; eapply PO_le, HPO; apply ind_le].
    cbn [api]. rewrite Hf. destruct x as [st md lv w]. cbn [sf_st sf_live sf_mode sf_wk] in *. subst st lv.
    pose proof (HV (SNew (PB (BM (bm_id b) v)) k) (ind (bm_id b) n) (or_introl eq_refl)) as H2.
    assert (ind (bm_id b) n (BM (bm_id b) v) = 0) as E0. { destruct (decide (ind (bm_id b) n (BM (bm_id b) v) = 0)) as [|[_ H]%ind_inv]; [done|congruence]. }
    pose proof (HV SDone (ind (bm_id b) n) (or_intror eq_refl)) as H3.
    pose proof (PR_le (ind (bm_id b) n) (ibm (bm_id b)) (put_sf f (SF SDone md true w) s) (ind_le _ _)).
    cbv beta iota in H2, H3. rewrite E0 in H2. lia.
Qed.
Lemma sets_none_ne s o i v j n : reach s → sets_bprio s o i v → i ≠ j → none (ind j n) s → none (ind j n) (step s o).
Proof.
  intros Hr Hs Hij [N1 N2]. unfold step.
  assert (∀ m k, m ≠ j → ind j n (BM m k) = 0) as H0. { intros m k Hm. destruct (decide (ind j n (BM m k) = 0)) as [|[H _]%ind_inv]; [done|congruence]. }
  destruct Hs as [(a & x & -> & Ha & Hl & -> & ->)|(f & x & b & k & -> & Hf & Hl & Hst & <-)]; (apply none_collect; [by constructor|]; split; [|by apply api_PO]).
  - cbn [api]. rewrite Ha. destruct x as [k lk []]; [|done]. unfold PR in *. prj.
    rewrite (msum_eq _ s) by (by destruct k). rewrite sum_snoc. unfold f_b at 2. cbn [sf_st]. rewrite H0 by done.
    destruct k; prj; lia.
  - cbn [api]. rewrite Hf. destruct x as [st md lv w]. cbn [sf_st sf_live sf_mode sf_wk] in *. subst st lv. unfold PR in *. prj. rewrite (msum_eq _ s) by done.
    pose proof (sum_insert (f_b (ind j n)) _ _ _ (SF (SNew (PB (BM (bm_id b) v)) k) md true w) Hf) as H.
    unfold f_b in H at 4. cbn [sf_st] in H. rewrite H0 in H by done. lia.
Qed.
Lemma run_snoc s l o : run s (l ++ [o]) = step (run s l) o.
Proof. unfold run. by rewrite fold_left_app. Qed.
Lemma bset_dec s o i : (∃ v, sets_bprio s o i v) ∨ ∀ v, ¬ sets_bprio s o i v.
Proof.
  destruct o; try (by right; intros vv [(?&?&[=]&_)|(?&?&?&?&[=]&_)]).
  - destruct (addrs s !! a) as [x|] eqn:Ha; [destruct (ad_live x) eqn:Hl; [destruct (decide (i = nbm s))|]|].
    1: left; exists 0%N; left; eexists _, _; by split_and!. all: right; intros v [(?&?&[= <-]&?&?&?&_)|(?&?&?&?&[=]&_)]; congruence.
  - destruct (sfs s !! f) as [x|] eqn:Hf; [destruct (sf_live x) eqn:Hl; [destruct (sf_st x) as [[m|b] k| | | |] eqn:Hst; [|destruct (decide (bm_id b = i))|..]|]|].
    2: left; exists n; right; eexists _, _, _, _; by split_and!. all: right; intros v [(?&?&[=]&_)|(?&?&?&?&[= <- <-]&?&?&?&?)]; congruence.
Qed.
Lemma bprio_last c ops i v : exists_bcast_as (run (init c) ops) i v → last_bset (init c) ops i v.
Proof.
  intros H%exists_not_none. revert H. induction ops as [|o ops IH] using rev_ind; intros H.
  - exfalso. apply H. split; [done|]. split; [|done]. intros [|b]; done.
  - rewrite run_snoc in H. assert (reach (run (init c) ops)) as Hr by (by apply reach_run, reach_init).
    destruct (bset_dec (run (init c) ops) o i) as [[w Hw]|Hno].
    + pose proof (sets_none _ _ _ _ _ Hr Hw H) as ->. exists ops, o, []. split; [done|]. split; [done|]. by intros [] ??? [=].
    + assert (¬ none (ind i v) (run (init c) ops)) as Hn.
      { intros Hn. apply H.
        assert ((∃ j w, sets_bprio (run (init c) ops) o j w) ∨ ∀ j w, ¬ sets_bprio (run (init c) ops) o j w) as [(j & w & Hj)|Hj].
        { destruct o; try (by right; intros jj vv [(?&?&[=]&_)|(?&?&?&?&[=]&_)]).
          - destruct (bset_dec (run (init c) ops) (ABroadcast a) (nbm (run (init c) ops))) as [[w Hw]|Hw]; [left; by eexists _, _|].
            right. intros j w Hj. destruct Hj as [(a'&x&?&?&?&->&?)|(?&?&?&?&[=]&_)]. eapply Hw. left. eexists _, _; by split_and!.
          - destruct (sfs (run (init c) ops) !! f) as [x|] eqn:Hf; [destruct (sf_live x) eqn:Hl; [destruct (sf_st x) as [[m|b] k| | | |] eqn:Hst|]|].
            2: left; exists (bm_id b), n; right; eexists _, _, _, _; by split_and!. all: right; intros j w [(?&?&[=]&_)|(?&?&?&?&[= <- <-]&?&?&?&?)]; congruence. }
        - eapply sets_none_ne; [done|exact Hj| |done]. intros ->. by eapply Hno.
        - by apply none_step. }
      destruct (IH Hn) as (ops1 & o1 & ops2 & E & H1 & H2). exists ops1, o1, (ops2 ++ [o]). split; [by rewrite E, <-app_assoc|]. split; [done|].
      intros ops3 o' ops4 v' E'. destruct (decide (ops4 = [])) as [->|Hne].
      * apply app_inj_tail in E' as [-> ->]. rewrite <- E. apply Hno.
      * destruct (exists_last Hne) as (l & z & ->). assert (ops2 = ops3 ++ o' :: l) as -> by (rewrite app_comm_cons, app_assoc in E'; by apply app_inj_tail in E' as [-> _]).
        by eapply H2.
Qed.
