(** Actors on executors: no message is left behind. *)
From stdpp Require Import base numbers list list_numbers.
From Coq Require Import Lia.
From Verif Require Import Prio Heap State Model HeapProofs Frame Lib InvBusy InvCount Effects InvMsg InvOne InvOne2 InvBc Mono Events Spec Bridge FinishSpec FinishProofs
  FinalC FinalD FinalG FinalI ClaimsA ClaimsB ClaimsE ClaimsN FinalE System SystemSpec SystemProofs SystemInv SystemEnd.

(** ** Nobody drops a message or a waiting receive future *)
Definition bad_why (y : why) : bool := match y with DUserMsg | DUserRun | DWindow => true | _ => false end.
Definition g_bad (u : micro) : nat := match u with UOneDrop _ | UCancel _ | URequeue _ => 1 | UDropMsg _ y => if bad_why y then 1 else 0 | _ => 0 end.
Definition e_bad (e : ev) : nat := match e with EvDrop _ y => if bad_why y then 1 else 0 | _ => 0 end.
Definition clean (s : state) : Prop := msum g_bad s = 0 ∧ Σ e_bad (log s) = 0.
Lemma collect_clean s : clean s → clean (collect s).
Proof.
  intros [H1 H2]. unfold collect. destruct (chan_owned s); [done|]. destruct (free_evs s) as (k & E & Hk). split.
  - rewrite (msum_eq _ s); [done|]. by autorewrite with fr_thr.
  - rewrite E, sum_list_with_app, H2, (sum_zero _ k); [done|]. intros e He. by destruct (Hk _ He) as (? & ? & -> & [-> | ->]).
Qed.
Lemma sf_drop_bad x l : sf_drop x = Some l → Σ g_bad l = 0.
Proof.
  unfold sf_drop, payload_drop, tx_drop. repeat case_match; intros E; simplify_eq; unfold tx_drop; rewrite ?sum_list_with_app; cbn; try done.
Qed.
Lemma api_clean s o : clean s → (∀ r x, o = ADropHol r → hols s !! r = Some x → h_st x = HMailbox ∨ h_st x = HGone) → clean (api o s).
Proof.
  intros [H1 H2] Ho. split.
  - destruct o; cbn [api]; repeat (dgoal; try done); cbv zeta; unfold add_addr, call, emit; repeat dgoal; unfold msum in *; repeat (progress (prj; autorewrite with fr_thr));
      try done; rewrite ?sum_snoc, ?H1; try done.
    all: unfold rx_drop, payload_drop, tx_drop; rewrite ?sum_list_with_app; cbn [sum_list_with g_bad].
    all: repeat match goal with |- context [Σ _ (match ?x with _ => _ end)] => destruct x end; try done.
    all: try (erewrite sf_drop_bad by eassumption; done).
    unfold hol_drop in Em0. destruct (Ho r _ eq_refl Em) as [Hs|Hs]; rewrite Hs in Em0; by simplify_eq.
  - destruct (api_evs o s) as [-> |(e & -> & He)]; [done|]. cbn [sum_list_with]. destruct e; try done; by destruct o.
Qed.
Lemma exec_bad u s s1 new : exec u s = (s1, new) → g_bad u = 0 → Σ g_bad new = 0 ∧ Σ e_bad (log s1) = Σ e_bad (log s).
Proof.
  intros E Hu. split.
  - exec_cases u E; try done.
    all: unfold rx_drop, payload_drop, tx_drop in *; rewrite ?sum_list_with_app.
    all: repeat match goal with |- context [Σ _ (match ?x with _ => _ end)] => destruct x end; try done.
    all: try (rewrite (sum_notify g_bad) by done; done).
  - destruct (exec_evs u s s1 new E) as (k & -> & Hk). rewrite sum_list_with_app, (sum_zero _ k); [done|]. intros e He. specialize (Hk e He).
    destruct e; try done. cbn in Hk |- *. destruct Hk as [(_ & [-> | ->])|(x & -> & _)]; [done|done|]. cbn in Hu. by destruct (bad_why y).
Qed.
Lemma step_clean s o : clean s → (∀ r x, o = ADropHol r → hols s !! r = Some x → h_st x = HMailbox ∨ h_st x = HGone) → clean (step s o).
Proof.
  intros H Ho. unfold step. apply collect_clean. destruct o as [t| | | | | | | | | | | | | | | | | | | | | | | | | | |]; try (by apply api_clean).
  unfold do_step. destruct (thr s !! t) as [[|u rest]|] eqn:Ht; try done. destruct (exec u s) as [s1 new] eqn:E. pose proof (exec_thr u s) as Hthr. rewrite E in Hthr. cbn [fst] in Hthr.
  destruct H as [H1 H2]. pose proof (msum_step g_bad s t u rest new s1 Ht Hthr) as HM. pose proof (msum_head g_bad s t u rest Ht) as HH.
  destruct (exec_bad u s s1 new E ltac:(lia)) as [H3 H4]. split; [lia|]. prj. lia.
Qed.

(** ** Receiver-side objects belong to the tasks *)
Definition own (y : sys) : Prop :=
  ∀ r x, hols (ch y) !! r = Some x → h_st x = HMailbox ∨ h_st x = HGone ∨ ∃ i t, tk y !! i = Some t ∧ t_st t = TAwait r.
Lemma api_new s o r x : hols s !! r = None → hols (api o s) !! r = Some x → h_st x = HMailbox ∨ r = length (hols s) ∧ ∃ h, o = ANext h.
Proof.
  intros Hn. assert (∀ q y, (<[q:=y]> (hols s)) !! r = None) as Hi.
  { intros q y. apply lookup_ge_None. rewrite insert_length. by apply lookup_ge_None. }
  destruct o; cbn [api]; repeat (dgoal; try (rewrite Hn; done)); cbv zeta; unfold add_addr; repeat dgoal; repeat (progress (prj; autorewrite with fr_hols));
    rewrite ?Hi, ?Hn; try done.
  intros [?|[Hle H]]%lookup_app_Some; [congruence|]. destruct (r - length (hols s)) eqn:E; [|done]. right. split; [lia|by eexists].
Qed.
Lemma exec_new u s s1 new r x : exec u s = (s1, new) → hols s !! r = None → hols s1 !! r = Some x → h_st x = HMailbox.
Proof.
  intros E Hn. assert (∀ f q, alter f q (hols s) !! r = None) as Hi.
  { intros f q. apply lookup_ge_None. rewrite alter_length. by apply lookup_ge_None. }
  exec_cases u E; unfold panic_recv in *; repeat (progress (prj; autorewrite with fr_hols)); rewrite ?Hi, ?Hn; try done.
  all: intros [?|[Hle H]]%lookup_app_Some; [congruence|]; destruct (r - length (hols s)) eqn:E; [|done]; by injection H as <-.
Qed.
Lemma step_new s o r x : hols s !! r = None → hols (step s o) !! r = Some x → h_st x = HMailbox ∨ r = length (hols s) ∧ ∃ h, o = ANext h.
Proof.
  intros Hn. unfold step. rewrite collect_hols. destruct o as [t| | | | | | | | | | | | | | | | | | | | | | | | | | |]; try (by apply api_new).
  unfold do_step. destruct (thr s !! t) as [[|u rest]|] eqn:Ht; rewrite ?Hn; try done. destruct (exec u s) as [s1 new] eqn:E. prj. left. by eapply exec_new.
Qed.
Lemma step_dead s o r x x' : touched o = Some r → hols s !! r = Some x → h_st x = HMailbox ∨ h_st x = HGone →
  hols (step s o) !! r = Some x' → h_st x' = HMailbox ∨ h_st x' = HGone.
Proof.
  intros Ht Hx Hs. unfold step. rewrite collect_hols. assert (r < length (hols s)) as Hl by by eapply lookup_lt_Some. destruct x as [b st k w]. cbn in Hs.
  destruct o; cbn in Ht; try done; injection Ht as ->; cbn [api]; rewrite Hx; destruct Hs as [-> | ->].
  all: try (intros H; simplify_eq; cbn; tauto).
  (*A*)
  all: cbn; rewrite ?list_lookup_insert by done; intros H; simplify_eq; cbn; tauto.
Qed.

(** What a step of a task does to the channel, and what it touches. *)
Lemma task_op y i t v s' st : SInv y → tk y !! i = Some t → task_step t v (ch y) = Some (s', st) →
  (s' = ch y ∧ (∀ r, st ≠ TAwait r) ∧ ∀ r x, t_st t = TAwait r → hols (ch y) !! r = Some x → h_st x = HGone) ∨
  ∃ o, s' = step (ch y) o ∧ (∀ r, touched o = Some r → st = TAwait r ∨ r = t_mb t ∧ t_st t = TDrop) ∧ (∀ r, o = ADropHol r → r = t_mb t ∧ t_st t = TDrop) ∧
    (t_st t = TLoop ∨ t_st t = TDrop ∨ t_st t = st) ∧ ((∃ h, o = ANext h) → st = TAwait (length (hols (ch y)))).
Proof.
  intros I Ht E. destruct (task_cases _ _ _ _ _ E) as [(-> & H1 & _)|[(E1 & Hs' & Est)|[(q & h & o & E1 & Hh & Ho & Hs' & Est)|(E1 & Hs' & Est)]]].
  - left. split; [done|]. split; [done|]. intros r x E1 Hx.
    unfold task_step in E. rewrite E1, Hx in E. destruct (h_st x); try done; try (injection E as _ <-; by destruct (H1 r)). destruct (existsb _ _); [|done]. injection E as _ <-. by destruct (H1 r).
  - right. eexists. split; [exact Hs'|]. split_and!; [done|done|tauto|done].
  - right. eexists. split; [exact Hs'|]. split_and!.
    + intros r. rewrite (await_touch _ _ _ _ Ho). intros [= <-]. by left.
    + intros r ->. unfold await_op in Ho. by destruct (h_st h).
    + right; right. congruence.
    + intros [z ->]. unfold await_op in Ho. by destruct (h_st h).
  - right. eexists. split; [exact Hs'|]. split_and!; [| |tauto|by intros [? ?]].
    + intros r [= <-]. by right.
    + intros r [= <-]. done.
Qed.
Lemma foreign_touch y o r i t : foreign y o = true → touched o = Some r → tk y !! i = Some t → of1 t r = false.
Proof. intros Hf Ho. eapply of_task_1. destruct o; try done; cbn in Ho, Hf; injection Ho as <-; by apply negb_true_iff. Qed.
Lemma foreign_dead y o r x : own y → foreign y o = true → touched o = Some r → hols (ch y) !! r = Some x → h_st x = HMailbox ∨ h_st x = HGone.
Proof.
  intros HO' Hf Ho Hx. destruct (HO' r x Hx) as [?|[?|(i & t & Ht & Hs)]]; [tauto..|]. pose proof (foreign_touch y o r i t Hf Ho Ht) as H.
  unfold of1 in H. rewrite Hs, Nat.eqb_refl in H. done.
Qed.
Lemma own_step y l : reach (ch y) → SInv y → own y → (∀ h, l ≠ SCall (ANext h)) → own (sys_step y l).
Proof.
  intros Hr I HO' Hl.
  assert (∀ i t st r x, tk y !! i = Some t → hols (ch y) !! r = Some x → h_st x = HMailbox ∨ h_st x = HGone ∨ t_st t = TAwait r ∨
    ∃ j t', <[i:=TK (t_mb t) st]> (tk y) !! j = Some t' ∧ t_st t' = TAwait r) as HX.
  { intros i t st r x Ht Hx. destruct (HO' r x Hx) as [?|[?|(j & t' & Hj & Hs)]]; [tauto..|]. destruct (decide (j = i)) as [->|Hne]; [right; right; left; congruence|].
    do 3 right. exists j, t'. by rewrite list_lookup_insert_ne. }
  destruct l as [o|h|i v|i]; cbn [sys_step].
  - destruct (foreign y o) eqn:Hf; [|done]. intros r x' Hx'. cbn [ch tk] in *. destruct (hols (ch y) !! r) as [x|] eqn:Hx.
    + destruct (decide (touched o = Some r)) as [Ht|Ht].
      { destruct (step_dead _ _ _ _ _ Ht Hx (foreign_dead _ _ _ _ HO' Hf Ht Hx) Hx'); tauto. }
      destruct (hol_keep _ o r x Hr Hx Ht) as (x2 & Hx2 & HK). simplify_eq. specialize (HO' r x Hx).
      destruct HK as [[-> _]|(E & _)]; [done|]. rewrite E in HO'. destruct HO' as [|[|]]; [done..|]. by do 2 right.
    + destruct (step_new _ _ _ _ Hx Hx') as [?|(_ & h & ->)]; [by left|by destruct (Hl h)].
  - destruct (hols (ch y) !! h) as [[b [] k w]|] eqn:Hh; try done. destruct (of_task y h) eqn:Ho; [done|]. intros r x Hx. cbn [ch tk] in *.
    destruct (HO' r x Hx) as [?|[?|(i & t & Ht & Hs)]]; [tauto..|]. do 2 right. exists i, t. split; [by apply lookup_app_l_Some|done].
  - destruct (tk y !! i) as [t|] eqn:Ht; [|done]. destruct (task_step t v (ch y)) as [[s' st]|] eqn:E; [|done].
    assert (i < length (tk y)) as Hil by by eapply lookup_lt_Some. pose proof (proj1 I _ _ Ht) as HT.
    assert (∀ r, st = TAwait r → ∃ j t', <[i:=TK (t_mb t) st]> (tk y) !! j = Some t' ∧ t_st t' = TAwait r) as HM.
    { intros r ->. exists i, (TK (t_mb t) (TAwait r)). by rewrite list_lookup_insert. }
    specialize (HX i t st). destruct (task_op y i t v s' st I Ht E) as [(-> & H1 & H2)|(o & -> & Ho & Hdr & Hst & Hn)].
    + intros r x Hx. cbn [ch tk] in *. destruct (HX r x Ht Hx) as [?|[?|[E1|?]]]; [tauto..| |tauto]. right; left. by eapply H2.
    + assert (∀ r x, r = t_mb t → t_st t = TDrop → hols (ch y) !! r = Some x → h_st x = HMailbox) as Hmb.
      { intros r x -> Hd Hx. destruct (tinv_mb _ _ HT) as (x2 & Hx2 & Hs); [by rewrite Hd|]. congruence. }
      intros r x' Hx'. cbn [ch tk] in *. destruct (hols (ch y) !! r) as [x|] eqn:Hx.
      * destruct (decide (touched o = Some r)) as [Htr|Htr].
        { destruct (Ho r Htr) as [E1|[E1 E2]]; [do 2 right; by apply HM|]. destruct (step_dead _ _ _ _ _ Htr Hx (or_introl (Hmb _ _ E1 E2 Hx)) Hx'); tauto. }
        destruct (hol_keep _ o r x Hr Hx Htr) as (x2 & Hx2 & HK). simplify_eq. specialize (HX r x Ht Hx).
        destruct HX as [HX|[HX|[HX|HX]]]; [| |do 2 right; apply HM; destruct Hst as [Hst|[Hst|Hst]]; congruence|by do 2 right].
        -- destruct HK as [[-> _]|(E1 & _)]; [by left|congruence].
        -- destruct HK as [[-> _]|(E1 & _)]; [by right; left|congruence].
      * destruct (step_new _ _ _ _ Hx Hx') as [?|(-> & Ha)]; [by left|]. do 2 right. apply HM. by apply Hn.
  - destruct (tk y !! i) as [t|] eqn:Ht; [|done]. destruct (task_cancel t (ch y)) as [[s' st]|] eqn:E; [|done]. specialize (HX i t st).
    destruct (cancel_cases _ _ _ _ E) as (_ & -> & [[-> Es]|(q & h & Es & Hh & -> & Hst)]); intros r x' Hx'; cbn [ch tk] in *.
    + destruct (HX r x' Ht Hx') as [?|[?|[E1|?]]]; [tauto..| |tauto]. destruct Es; congruence.
    + destruct (decide (q = r)) as [->|Hne].
      { right; left. revert Hx'. unfold step. rewrite collect_hols. cbn [api]. rewrite Hh. unfold hol_drop.
        destruct Hst as [[? ->]|[? ->]]; prj; rewrite list_lookup_insert by (by eapply lookup_lt_Some); by intros [= <-]. }
      destruct (hols (ch y) !! r) as [x|] eqn:Hx; [|by destruct (step_new _ _ _ _ Hx Hx') as [?|(_ & ? & ?)]; [left|]].
      destruct (hol_keep _ (ADropHol q) r x Hr Hx) as (x2 & Hx2 & HK); [cbn; congruence|]. simplify_eq. destruct (HX r x Ht Hx) as [H|[H|[H|H]]]; [| |congruence|tauto].
      * destruct HK as [[-> _]|(E1 & _)]; [by left|congruence].
      * destruct HK as [[-> _]|(E1 & _)]; [by right; left|congruence].
Qed.
Lemma own_run c l : hands_off l → own (sys_run (sys_init c) l).
Proof.
  induction l as [|x l IH] using rev_ind; intros Hl.
  - intros r z Hz. cbn in Hz. destruct r; [|done]. injection Hz as <-. by left.
  - rewrite sys_run_snoc. destruct (sys_reach (sys_run (sys_init c) l)) as [Hr I]; [by exists c, l|]. apply own_step; [by apply reachable_reach|done|..].
    + apply IH. intros h Hh. apply (Hl h), elem_of_app. by left.
    + intros h ->. apply (Hl h), elem_of_app. right. by apply elem_of_list_singleton.
Qed.

Definition hinv (y : sys) : Prop := clean (ch y) ∧ own y.
Lemma hinv_step y l : reach (ch y) → SInv y → hinv y → (∀ h, l ≠ SCall (ANext h)) → (∀ i, l ≠ SCancel i) → hinv (sys_step y l).
Proof.
  intros Hr I [HC HO'] Hl Hc. split; [|by apply own_step]. destruct l as [o|h|i v|i]; cbn [sys_step].
  - destruct (foreign y o) eqn:Hf; [|done]. cbn [ch]. apply step_clean; [done|]. intros r x ->. by eapply foreign_dead.
  - by repeat case_match.
  - destruct (tk y !! i) as [t|] eqn:Ht; [|done]. destruct (task_step t v (ch y)) as [[s' st]|] eqn:E; [|done]. cbn [ch].
    destruct (task_op y i t v s' st I Ht E) as [(-> & _)|(o & -> & _ & Hdr & _)]; [done|]. apply step_clean; [done|]. intros r x Er Hx. destruct (Hdr r Er) as [-> Hd]. left.
    destruct (tinv_mb _ _ (proj1 I _ _ Ht)) as (x2 & Hx2 & Hs); [by rewrite Hd|]. congruence.
  - by destruct (Hc i).
Qed.
Lemma hinv_run c l : hands_off l → uncancelled l → hinv (sys_run (sys_init c) l).
Proof.
  induction l as [|x l IH] using rev_ind; intros Hl Hc.
  - split; [by split|]. intros r z Hz. cbn in Hz. destruct r; [|done]. injection Hz as <-. by left.
  - rewrite sys_run_snoc. destruct (sys_reach (sys_run (sys_init c) l)) as [Hr I]; [by exists c, l|]. apply hinv_step; [by apply reachable_reach|done|..].
    + apply IH; [intros h Hh; apply (Hl h), elem_of_app; by left|intros i Hi; apply (Hc i), elem_of_app; by left].
    + intros h ->. apply (Hl h), elem_of_app. right. by apply elem_of_list_singleton.
    + intros i ->. apply (Hc i), elem_of_app. right. by apply elem_of_list_singleton.
Qed.

(** ** At rest every accepted message was handled *)
Lemma rest_over y : sys_reachable y → own y → (∀ l, ¬ inner y l) → some_actor y → ∀ m, happened (EvAccept m) (ch y) →
  (∃ v, happened (EvDone m v) (ch y)) ∨ ∃ x, happened (EvDrop m x) (ch y) ∧ bad_why x = true.
Proof.
  intros Hy HOw Hn (i & t & Ht & Hd) m Hm. destruct (sys_reach y Hy) as [Hr I]. pose proof (rest_quiet y Hn) as Hq.
  assert (∀ r x, hols (ch y) !! r = Some x → h_st x = HMailbox ∨ h_st x = HGone ∨ idle (ch y) r) as Hh.
  { intros r x Hx. destruct (HOw r x Hx) as [?|[?|(j & t' & Hj & Hs)]]; [tauto..|]. destruct (rest_tasks y Hy Hn j t' Hj) as [E|(r' & E & Hi)]; [congruence|].
    do 2 right. congruence. }
  assert (mb (ch y) (t_mb t)) as (x0 & Hx0 & Hs0) by (apply tinv_mb; [by eapply (proj1 I)|done]).
  assert (0 < times (accepted m) (ch y)) as Ha by (eapply cnt_pos; [exact Hm|cbn; apply Nat.eqb_refl]).
  destruct (c02 (ch y) m Hr Ha) as [Hsum _].
  assert (in_queue m (ch y) = 0) as Z1.
  { destruct (rest_settled y Hy Hn) as [_ HS]. destruct (HS i t Ht) as [?|(r & h & _ & _ & _ & Hu & _)]; [done|]. unfold in_queue. by rewrite Hu. }
  assert (in_flight m (ch y) = 0) as Z2.
  { destruct (decide (0 < in_flight m (ch y))) as [Hf|]; [|lia]. exfalso. destruct (c02_flight _ _ Hr Hf) as [(r & h & o & k & H1 & H2 & H3 & _)|H]; [|rewrite quiet_todo in H by done; lia].
    destruct (Hh r h H1) as [?|[?|(h' & o' & rx & w & H4 & H5 & H6)]]; congruence. }
  assert (∀ r x, hols (ch y) !! r = Some x → match h_st x with HMsg _ | HDispNew _ | HRun _ => False | _ => True end) as Hst.
  { intros r x Hx. destruct (Hh r x Hx) as [E|[E|(h' & o' & rx & w & H4 & H5 & H6)]]; [by rewrite E..|]. simplify_eq. by rewrite H5. }
  assert (held m (ch y) = 0) as Z3.
  { apply cnt_zero. intros x [r Hx]%elem_of_list_lookup. specialize (Hst r x Hx). by destruct (h_st x). }
  assert (running m (ch y) = 0) as Z4.
  { apply cnt_zero. intros x [r Hx]%elem_of_list_lookup. specialize (Hst r x Hx). by destruct (h_st x). }
  assert (rxc (ch y) ≠ 0) as Hrx.
  { rewrite (c21 _ Hr). enough (0 < mailbox_objects (ch y)) by lia. eapply cnt_pos; [by eapply elem_of_list_lookup_2|]. by rewrite Hs0. }
  assert (∀ x, happened (EvDrop m x) (ch y) → before_receive x = true ∨ by_program x = true → bad_why x = true) as Hdr.
  { intros x Hx H1. pose proof (c02_reasons _ _ _ Hr Hx) as H2. destruct x; try done; try (by destruct H1). destruct H2 as [_ H2]. specialize (H2 _ _ Hx0). congruence. }
  unfold in_requeue, in_drop in Hsum. rewrite Z1, Z2, Z3, Z4, !quiet_todo in Hsum by done. unfold times in Hsum.
  assert (∀ ys, (∀ x, ys x = true → before_receive x = true ∨ by_program x = true) → 0 < cnt (dropped ys m) (log (ch y)) → ∃ x, happened (EvDrop m x) (ch y) ∧ bad_why x = true) as HD.
  { intros ys Hys (e & He & Hf)%cnt_pos_inv. destruct e; try done. cbn in Hf. apply andb_true_iff in Hf as [->%Nat.eqb_eq Hf]. exists y0. split; [done|]. apply Hdr; [done|]. by apply Hys. }
  destruct (decide (0 < cnt (finished m) (log (ch y)))) as [(e & He & Hf)%cnt_pos_inv|Hf]; [left|right].
  - destruct e; try done. cbn in Hf. apply Nat.eqb_eq in Hf as ->. by eexists.
  - destruct (decide (0 < cnt (dropped before_receive m) (log (ch y)))) as [H|H]; [apply (HD before_receive); [by left|done]|].
    apply (HD by_program); [by right|lia].
Qed.
Lemma rest_all y : sys_reachable y → hinv y → (∀ l, ¬ inner y l) → some_actor y → ∀ m, happened (EvAccept m) (ch y) → ∃ v, happened (EvDone m v) (ch y).
Proof.
  intros Hy [[_ HC] HOw] Hn Ha m Hm. destruct (rest_over y Hy HOw Hn Ha m Hm) as [?|(x & Hx & E)]; [done|].
  pose proof (sum_elem e_bad _ _ Hx) as H. cbn in H. rewrite E in H. lia.
Qed.
Lemma inner_plain y x : inner y x → (∀ h, x ≠ SCall (ANext h)) ∧ ∀ i, x ≠ SCancel i.
Proof. intros [(? & ? & -> & _)|(? & ? & ? & ? & -> & _)]; done. Qed.
Lemma no_message_left c l : hands_off l → uncancelled l →
  leads (λ z, some_actor z → ∀ m, happened (EvAccept m) (ch z) → ∃ v, happened (EvDone m v) (ch z)) (sys_run (sys_init c) l).
Proof.
  intros Hl Hc. apply (leads_all (λ y, sys_reachable y ∧ hinv y)); [by intros y [? _]|..].
  - intros y x [Hy Hi] Hx. split; [by apply sys_reachable_step|]. destruct (sys_reach y Hy) as [Hr I]. by apply hinv_step; [apply reachable_reach|..|apply (inner_plain y x)|apply (inner_plain y x)].
  - intros y [Hy Hi] Hn. by apply rest_all.
  - split; [by exists c, l|by apply hinv_run].
Qed.

(** ** Dropped and panicking actors *)
Definition g_um (u : micro) : nat := match u with UDropMsg _ DUserMsg => 1 | _ => 0 end.
Definition e_um (e : ev) : nat := match e with EvDrop _ DUserMsg => 1 | _ => 0 end.
Definition clean2 (s : state) : Prop := msum g_um s = 0 ∧ Σ e_um (log s) = 0.
Lemma collect_clean2 s : clean2 s → clean2 (collect s).
Proof.
  intros [H1 H2]. unfold collect. destruct (chan_owned s); [done|]. destruct (free_evs s) as (k & E & Hk). split.
  - rewrite (msum_eq _ s); [done|]. by autorewrite with fr_thr.
  - rewrite E, sum_list_with_app, H2, (sum_zero _ k); [done|]. intros e He. by destruct (Hk _ He) as (? & ? & -> & [-> | ->]).
Qed.
Lemma sf_drop_um x l : sf_drop x = Some l → Σ g_um l = 0.
Proof.
  unfold sf_drop, payload_drop, tx_drop. repeat case_match; intros E; simplify_eq; unfold tx_drop; rewrite ?sum_list_with_app; cbn; try done.
Qed.
Definition unheld (o : op) (s : state) : Prop := ∀ r x a, o = ADropHol r → hols s !! r = Some x → h_st x ≠ HMsg a ∧ h_st x ≠ HDispNew a.
Lemma api_clean2 s o : clean2 s → unheld o s → clean2 (api o s).
Proof.
  intros [H1 H2] Ho. split.
  - destruct o; cbn [api]; repeat (dgoal; try done); cbv zeta; unfold add_addr, call, emit; repeat dgoal; unfold msum in *; repeat (progress (prj; autorewrite with fr_thr));
      try done; rewrite ?sum_snoc, ?H1; try done.
    all: unfold rx_drop, payload_drop, tx_drop; rewrite ?sum_list_with_app; cbn [sum_list_with g_um].
    all: repeat match goal with |- context [Σ _ (match ?x with _ => _ end)] => destruct x end; try done.
    all: try (erewrite sf_drop_um by eassumption; done).
    unfold hol_drop in Em0. destruct (h_st h) eqn:Es; simplify_eq; unfold amsg_drop, rx_drop; rewrite ?sum_list_with_app; repeat case_match; try done.
    all: match goal with Es : h_st _ = ?c ?a |- _ => destruct (Ho r _ a eq_refl Em); congruence end.
  - destruct (api_evs o s) as [-> |(e & -> & He)]; [done|]. cbn [sum_list_with]. destruct e; try done; by destruct o.
Qed.
Lemma exec_um u s s1 new : exec u s = (s1, new) → g_um u = 0 → Σ g_um new = 0 ∧ Σ e_um (log s1) = Σ e_um (log s).
Proof.
  intros E Hu. split.
  - exec_cases u E; try done.
    all: unfold rx_drop, payload_drop, tx_drop in *; rewrite ?sum_list_with_app.
    all: repeat match goal with |- context [Σ _ (match ?x with _ => _ end)] => destruct x end; try done.
    all: try (rewrite (sum_notify g_um) by done; done).
  - destruct (exec_evs u s s1 new E) as (k & -> & Hk). rewrite sum_list_with_app, (sum_zero _ k); [done|]. intros e He. specialize (Hk e He).
    destruct e; try done. cbn in Hk |- *. destruct Hk as [(_ & [-> | ->])|(x & -> & _)]; [done|done|]. cbn in Hu. by destruct y.
Qed.
Lemma step_clean2 s o : clean2 s → unheld o s → clean2 (step s o).
Proof.
  intros H Ho. unfold step. apply collect_clean2. destruct o as [t| | | | | | | | | | | | | | | | | | | | | | | | | | |]; try (by apply api_clean2).
  unfold do_step. destruct (thr s !! t) as [[|u rest]|] eqn:Ht; try done. destruct (exec u s) as [s1 new] eqn:E. pose proof (exec_thr u s) as Hthr. rewrite E in Hthr. cbn [fst] in Hthr.
  destruct H as [H1 H2]. pose proof (msum_step g_um s t u rest new s1 Ht Hthr) as HM. pose proof (msum_head g_um s t u rest Ht) as HH.
  destruct (exec_um u s s1 new E ltac:(lia)) as [H3 H4]. split; [lia|]. prj. lia.
Qed.
Definition hinv2 (y : sys) : Prop := clean2 (ch y) ∧ own y.
Lemma hinv2_step y l : reach (ch y) → SInv y → hinv2 y → (∀ h, l ≠ SCall (ANext h)) → hinv2 (sys_step y l).
Proof.
  intros Hr I [HC HO'] Hl. split; [|by apply own_step]. destruct l as [o|h|i v|i]; cbn [sys_step].
  - destruct (foreign y o) eqn:Hf; [|done]. cbn [ch]. apply step_clean2; [done|]. intros r x a -> Hx. destruct (foreign_dead y (ADropHol r) r x HO' Hf eq_refl Hx) as [-> | ->]; done.
  - by repeat case_match.
  - destruct (tk y !! i) as [t|] eqn:Ht; [|done]. destruct (task_step t v (ch y)) as [[s' st]|] eqn:E; [|done]. cbn [ch].
    destruct (task_op y i t v s' st I Ht E) as [(-> & _)|(o & -> & _ & Hdr & _)]; [done|]. apply step_clean2; [done|]. intros r x a Er Hx. destruct (Hdr r Er) as [-> Hd].
    destruct (tinv_mb _ _ (proj1 I _ _ Ht)) as (x2 & Hx2 & Hs); [by rewrite Hd|]. rewrite Hx in Hx2. injection Hx2 as <-. by rewrite Hs.
  - destruct (tk y !! i) as [t|] eqn:Ht; [|done]. destruct (task_cancel t (ch y)) as [[s' st]|] eqn:E; [|done]. cbn [ch].
    destruct (cancel_cases _ _ _ _ E) as (_ & -> & [[-> Es]|(q & h & Es & Hh & -> & Hst)]); [done|]. apply step_clean2; [done|]. intros r x a [= <-] Hx. simplify_eq.
    destruct Hst as [[? ->]|[? ->]]; done.
Qed.
Lemma hinv2_run c l : hands_off l → hinv2 (sys_run (sys_init c) l).
Proof.
  intros Hl. split; [|by apply own_run]. induction l as [|x l IH] using rev_ind; [done|].
  assert (hands_off l) as Hl' by (intros h Hh; apply (Hl h), elem_of_app; by left).
  rewrite sys_run_snoc. destruct (sys_reach (sys_run (sys_init c) l)) as [Hr I]; [by exists c, l|]. apply hinv2_step; [by apply reachable_reach|done|split; [auto|by apply own_run]|].
  intros h ->. apply (Hl h), elem_of_app. right. by apply elem_of_list_singleton.
Qed.
Lemma rest_dropped y : sys_reachable y → hinv2 y → (∀ l, ¬ inner y l) → some_actor y → ∀ m, happened (EvAccept m) (ch y) →
  (∃ v, happened (EvDone m v) (ch y)) ∨ happened (EvDrop m DUserRun) (ch y) ∨ happened (EvDrop m DWindow) (ch y).
Proof.
  intros Hy [[_ HC] HOw] Hn Ha m Hm. destruct (rest_over y Hy HOw Hn Ha m Hm) as [?|(x & Hx & E)]; [by left|right]. destruct x; try done; [by right| |by left].
  pose proof (sum_elem e_um _ _ Hx) as H. cbn in H. lia.
Qed.
Lemma leads_hinv2 (P : sys → Prop) c l : hands_off l → (∀ y, sys_reachable y → hinv2 y → (∀ l, ¬ inner y l) → cap (ch y) = c → P y) → leads P (sys_run (sys_init c) l).
Proof.
  intros Hl HP. apply (leads_all (λ y, (sys_reachable y ∧ cap (ch y) = c) ∧ hinv2 y)); [by intros y [[? _] _]|..].
  - intros y x [[Hy Hk] Hi] Hx. destruct (sys_reach y Hy) as [Hr I]. split; [split; [by apply sys_reachable_step|]|].
    + destruct (ch_step y x) as [-> |[o ->]]; [done|]. by rewrite step_cap.
    + by apply hinv2_step; [apply reachable_reach|..|apply (inner_plain y x)].
  - intros y [[Hy Hk] Hi] Hn. by apply HP.
  - split; [split; [by exists c, l|]|by apply hinv2_run]. clear Hl. induction l as [|x l IH] using rev_ind; [done|]. rewrite sys_run_snoc.
    destruct (ch_step (sys_run (sys_init c) l) x) as [-> |[o ->]]; [done|]. by rewrite step_cap.
Qed.
Lemma message_over c l : hands_off l →
  leads (λ z, some_actor z → ∀ m, happened (EvAccept m) (ch z) →
    (∃ v, happened (EvDone m v) (ch z)) ∨ happened (EvDrop m DUserRun) (ch z) ∨ happened (EvDrop m DWindow) (ch z)) (sys_run (sys_init c) l).
Proof. intros Hl. apply leads_hinv2; [done|]. intros y Hy Hi Hn _. by apply rest_dropped. Qed.

(** ** How much is lost with dropped actors *)
Definition g_l (u : micro) : nat := match u with UOneDrop _ => 1 | UDropMsg _ y => if bad_why y then 1 else 0 | _ => 0 end.
Definition lossy (s : state) : nat := msum g_l s + Σ e_bad (log s).
Lemma collect_lossy s : lossy (collect s) = lossy s.
Proof.
  unfold lossy, collect. destruct (chan_owned s); [done|]. destruct (free_evs s) as (k & E & Hk).
  rewrite E, sum_list_with_app, (sum_zero _ k), (msum_eq _ s); [done|by autorewrite with fr_thr|]. intros e He. by destruct (Hk _ He) as (? & ? & -> & [-> | ->]).
Qed.
Lemma sf_drop_l x l : sf_drop x = Some l → Σ g_l l = 0.
Proof.
  unfold sf_drop, payload_drop, tx_drop. repeat case_match; intros E; simplify_eq; unfold tx_drop; rewrite ?sum_list_with_app; cbn; try done.
Qed.
Definition drops (o : op) (s : state) : Prop := ∃ r x, o = ADropHol r ∧ hols s !! r = Some x ∧ h_st x ≠ HMailbox ∧ h_st x ≠ HGone.
Lemma api_lossy s o : lossy (api o s) ≤ lossy s ∨ drops o s ∧ lossy (api o s) ≤ S (lossy s).
Proof.
  assert (Σ e_bad (log (api o s)) = Σ e_bad (log s)) as HE.
  { destruct (api_evs o s) as [-> |(e & -> & He)]; [done|]. cbn [sum_list_with]. destruct e; try done; by destruct o. }
  unfold lossy. rewrite HE.
  assert ((∃ r, o = ADropHol r) ∨ ¬ ∃ r, o = ADropHol r) as [[r ->]|Hn] by (destruct o; try (right; by intros [? ?]); left; by eexists).
  - cbn [api]. destruct (hols s !! r) as [x|] eqn:Hx; [|by left]. destruct (hol_drop x) as [p|] eqn:Hp; [|by left]. unfold call, msum. prj. rewrite sum_snoc. unfold hol_drop in Hp.
    assert (Σ g_l p ≤ 1 ∧ (h_st x = HMailbox ∨ h_st x = HGone → Σ g_l p = 0)) as [H1 H2].
    { destruct (h_st x); simplify_eq; unfold rx_drop, amsg_drop; rewrite ?sum_list_with_app; cbn [sum_list_with g_l]; rewrite ?sum_list_with_app; cbn [sum_list_with g_l bad_why]; try (destruct a); cbn; split; (lia || by intros [?|?]). }
    destruct (h_st x) eqn:Es; try (left; rewrite H2 by auto; lia).
    all: right; split; [exists r, x; by rewrite Es|lia].
  - left. apply Nat.add_le_mono; [|done].
    destruct o; cbn [api]; repeat (dgoal; try done); cbv zeta; unfold add_addr, call, emit; repeat dgoal; unfold msum in *; repeat (progress (prj; autorewrite with fr_thr));
      try done; rewrite ?sum_snoc; try done.
    all: unfold rx_drop, payload_drop, tx_drop; rewrite ?sum_list_with_app; cbn [sum_list_with g_l].
    all: repeat match goal with |- context [Σ _ (match ?x with _ => _ end)] => destruct x end; cbn; try lia.
    all: try (erewrite sf_drop_l by eassumption; lia).
    by destruct Hn; eexists.
Qed.
Lemma exec_lossy u s s1 new : exec u s = (s1, new) → Σ g_l new + Σ e_bad (log s1) ≤ g_l u + Σ e_bad (log s).
Proof.
  intros E. destruct (exec_evs u s s1 new E) as (k & Ek & Hk). rewrite Ek, sum_list_with_app.
  assert (Σ e_bad k = 0 ∨ ∃ m y, u = UDropMsg m y ∧ Σ e_bad k ≤ if bad_why y then 1 else 0) as [-> |(m & y & -> & HK)].
  { destruct u; try (left; apply sum_zero; intros e He; specialize (Hk e He); destruct e; try done; cbn in Hk |- *; destruct Hk as [(_ & [-> | ->])|(? & ? & _)]; done).
    right. eexists _, _. split; [done|]. cbn [exec] in E. injection E as <- <-. rewrite drop_umsg_log in Ek. change (EvDrop (um_id m) y :: log s) with ([EvDrop (um_id m) y] ++ log s) in Ek.
    apply app_inv_tail in Ek as <-. cbn. lia. }
  - enough (Σ g_l new ≤ g_l u) by lia.
    exec_cases u E; cbn; try lia.
    all: unfold rx_drop, payload_drop, tx_drop in *; rewrite ?sum_list_with_app.
    all: repeat match goal with |- context [Σ _ (match ?x with _ => _ end)] => destruct x end; cbn; try lia.
    all: try (rewrite (sum_notify g_l) by done; cbn; lia).
  - cbn [exec] in E. injection E as <- <-. cbn. lia.
Qed.
Lemma step_lossy s o : lossy (step s o) ≤ lossy s ∨ drops o s ∧ lossy (step s o) ≤ S (lossy s).
Proof.
  unfold step. rewrite collect_lossy. destruct o as [t| | | | | | | | | | | | | | | | | | | | | | | | | | |]; try (by apply api_lossy).
  left. unfold do_step. destruct (thr s !! t) as [[|u rest]|] eqn:Ht; try done. destruct (exec u s) as [s1 new] eqn:E. pose proof (exec_thr u s) as Hthr. rewrite E in Hthr. cbn [fst] in Hthr.
  unfold lossy. pose proof (msum_step g_l s t u rest new s1 Ht Hthr) as HM. pose proof (exec_lossy u s s1 new E). prj. lia.
Qed.
Lemma lossy_run c l : hands_off l → lossy (ch (sys_run (sys_init c) l)) ≤ cancels l.
Proof.
  induction l as [|x l IH] using rev_ind; intros Hl; [done|].
  assert (hands_off l) as Hl' by (intros h Hh; apply (Hl h), elem_of_app; by left). specialize (IH Hl').
  assert (cancels (l ++ [x]) = cancels l + cancels [x]) as ->.
  { unfold cancels. by rewrite List.filter_app, app_length. }
  rewrite sys_run_snoc. destruct (sys_reach (sys_run (sys_init c) l)) as [Hr I]; [by exists c, l|]. pose proof (own_run c l Hl') as HO'. set (y := sys_run (sys_init c) l) in *.
  assert (∀ o, ¬ drops o (ch y) → lossy (step (ch y) o) ≤ cancels l + cancels [x]) as HK.
  { intros o Ho. destruct (step_lossy (ch y) o) as [?|[? _]]; [lia|done]. }
  destruct x as [o|h|i v|i]; cbn [sys_step].
  - destruct (foreign y o) eqn:Hf; [|lia]. cbn [ch]. apply HK. intros (r & x & -> & Hx & H1 & H2). destruct (foreign_dead y (ADropHol r) r x HO' Hf eq_refl Hx); done.
  - repeat case_match; cbn [ch]; lia.
  - destruct (tk y !! i) as [t|] eqn:Ht; [|lia]. destruct (task_step t v (ch y)) as [[s' st]|] eqn:E; [|lia]. cbn [ch].
    destruct (task_op y i t v s' st I Ht E) as [(-> & _)|(o & -> & _ & Hdr & _)]; [lia|]. apply HK. intros (r & x & -> & Hx & H1 & H2). destruct (Hdr r eq_refl) as [-> Hd].
    destruct (tinv_mb _ _ (proj1 I _ _ Ht)) as (x2 & Hx2 & Hs); [by rewrite Hd|]. congruence.
  - change (cancels [SCancel i]) with 1. destruct (tk y !! i) as [t|] eqn:Ht; [|lia]. destruct (task_cancel t (ch y)) as [[s' st]|] eqn:E; [|lia]. cbn [ch].
    destruct (cancel_cases _ _ _ _ E) as (_ & -> & [[-> Es]|(q & h & Es & Hh & -> & Hst)]); [lia|]. destruct (step_lossy (ch y) (ADropHol q)) as [?|[_ ?]]; lia.
Qed.
Lemma losses_bound c l : hands_off l → losses (ch (sys_run (sys_init c) l)) ≤ cancels l.
Proof.
  intros Hl. pose proof (lossy_run c l Hl) as H. unfold lossy in H. enough (losses (ch (sys_run (sys_init c) l)) = Σ e_bad (log (ch (sys_run (sys_init c) l)))) by lia.
  apply cnt_sum. by intros [].
Qed.
