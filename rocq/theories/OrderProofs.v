(** The order of default-priority messages in short queues. *)
From stdpp Require Import base numbers list list_numbers.
From Coq Require Import Lia.
From Verif Require Import Prio Heap State Model HeapProofs Frame Lib InvBusy Effects InvMsg InvMsg2 InvOne InvOne2 InvWait InvWs InvBlk Mono Events InvBc Spec Bridge InvPrio InvErr FinalI Spec2 OrderSpec.

(** ** Tokens: live one-shot channels and receives in progress against receive futures *)
Definition g_tr (u : micro) : nat := match u with UTryRecv _ | UNextBc _ => 1 | _ => 0 end.
Definition g_oda (u : micro) : nat := match u with UOneDrop _ => 1 | _ => 0 end.
Definition h_rcv (h : holder) : nat := match h_st h with HRecvBusy | HRecvWait _ => 1 | _ => 0 end.
Definition InvTot (s : state) : Prop := Σ o_live (ones s) + msum g_tr s ≤ Σ h_rcv (hols s) + msum g_oda s.

Lemma live_oviews s : Σ o_live (ones s) = Σ (λ v : bool * bool, if fst v then 1 else 0) (oviews s).
Proof. unfold oviews. induction (ones s) as [|x l IH]; [done|]. cbn. by rewrite IH. Qed.
Lemma one_send_tl o c s : Σ o_live (ones (fst (one_send o c s))) = Σ o_live (ones s).
Proof. by rewrite !live_oviews, one_send_oviews. Qed.
Lemma try_fulfill_tl m s : Σ o_live (ones (fst (try_fulfill_receiver m s))) = Σ o_live (ones s).
Proof. by rewrite !live_oviews, try_fulfill_oviews. Qed.
Lemma send_broadcast_tl m s : Σ o_live (ones (send_broadcast m s)) = Σ o_live (ones s).
Proof. by rewrite !live_oviews, send_broadcast_oviews. Qed.
Lemma pop_broadcast_tl b s : Σ o_live (ones (fst (pop_broadcast b s))) = Σ o_live (ones s).
Proof. by rewrite !live_oviews, pop_broadcast_oviews. Qed.
Lemma free_tl s : Σ o_live (ones (free_chan s)) = Σ o_live (ones s).
Proof. by rewrite !live_oviews, free_oviews. Qed.
Lemma reach_tot s : reach s → InvTot s.
Proof.
  revert s. apply reach_inv; unfold InvTot.
  - intros c. cbn. lia.
  - intros s o Hr I. do_api o ltac:(autorewrite with fr_ones fr_hols).
  - intros s t u rest s1 new Hr I Ht E Hthr.
    pose proof (msum_step g_tr s t u rest new s1 Ht Hthr) as HM.
    pose proof (msum_step g_oda s t u rest new s1 Ht Hthr) as HM2.
    revert HM HM2. generalize (msum g_tr (set_thr (<[t:=new ++ rest]> (thr s1)) s1)).
    generalize (msum g_oda (set_thr (<[t:=new ++ rest]> (thr s1)) s1)). intros n2 n HM HM2.
    prj. clear Hthr.
    assert (∀ f, g_rf f u = 1 → at_ h_rcv (hols s) f = 1) as Hb.
    { intros f Hf. destruct (busyR_at _ _ _ _ _ Hr Ht Hf) as (sf & H1 & H2).
      rewrite !(at_some _ _ _ _ H1). unfold h_rcv. by rewrite H2. }
    assert (∀ o, g_one o u = 1 → at_ o_live (ones s) o = 1) as Hl.
    { intros o Ho. destruct (reach_own s Hr o) as [H1 _]. pose proof (msum_head (g_one o) s t u rest Ht).
      pose proof (at_bound o_live (ones s) o 1 ltac:(intros [[] ?]; cbn; lia)). lia. }
    assert (∀ o, g_pc o u = 1 → at_ o_taken (ones s) o = 0) as Hk.
    { intros o Ho. destruct (reach_own s Hr o) as [_ H1]. pose proof (msum_head (g_pc o) s t u rest Ht). lia. }
    do_exec u E HM ltac:(autorewrite with fr_hols fr_ones; rewrite ?one_send_tl, ?try_fulfill_tl, ?send_broadcast_tl, ?pop_broadcast_tl).
    all: rewrite ?sum_list_with_app in HM2; try (rewrite sum_notify in HM2 by done).
    all: repeat match type of HM2 with context [Σ _ (match ?x with _ => _ end)] => destruct x end.
    all: cbn -[Nat.eqb Nat.sub] in HM2.
    all: try (fin; done).
    all: tokb Hb g_rf; try (fin; done).
    all: try match goal with H : ones _ !! ?o = Some ?x |- _ => pose proof (Hl o ltac:(cbn; unfold isn; by rewrite Nat.eqb_refl)) as Hl0; rewrite (at_some _ _ _ _ H) in Hl0; cbn in Hl0 end.
    all: try match goal with H : hols _ !! _ = Some _ |- _ => rewrite !(at_some _ _ _ _ H) in * end.
    all: unfold o_live in *; cbn -[Nat.eqb] in *; try (destruct o_rx; [|done]); try lia.
    all: try match goal with Ht : thr _ !! _ = Some (UPollOne _ ?o :: _) |- _ => first [
      pose proof (Hk o ltac:(cbn; unfold isn; by rewrite Nat.eqb_refl)) as Hk0; rewrite (at_some _ _ _ _ Em0) in Hk0; done
      |pose proof (Hl o ltac:(cbn; unfold isn; by rewrite Nat.eqb_refl)) as Hl0; rewrite at_none in Hl0 by done; done
      |idtac] end.
    pose proof (Hl o ltac:(cbn; unfold isn; by rewrite Nat.eqb_refl)) as Hl0. rewrite at_none in Hl0 by done. done.
  - intros s Hr I Ho. rewrite (msum_eq g_tr s), (msum_eq g_oda s) by (autorewrite with fr_thr; done).
    autorewrite with fr_hols. rewrite free_tl. apply I.
Qed.

(** ** The order invariant *)
Fixpoint accs (l : list ev) : list nat :=
  match l with [] => [] | EvAccept m :: l => accs l ++ [m] | _ :: l => accs l end.
Fixpoint recs (l : list ev) : list nat :=
  match l with [] => [] | EvRecv _ (ToOne m) :: l => recs l ++ [um_id m] | _ :: l => recs l end.
Definition inf1 (x : one) : list nat := match x with ON true (OFull (CNewMsg m)) => [um_id m] | _ => [] end.
Definition infl (s : state) : list nat := concat (inf1 <$> ones s).
Definition Ord (s : state) : Prop :=
  ∃ D, accs (log s) = D ++ (um_id <$> uq s) ∧ (recs (log s) ++ infl s) `sublist_of` D.

Lemma accs_app l k : accs (l ++ k) = accs k ++ accs l.
Proof. induction l as [|e l IH]; simpl; [by rewrite app_nil_r|]. destruct e; try done. by rewrite IH, app_assoc. Qed.
Lemma recs_app l k : recs (l ++ k) = recs k ++ recs l.
Proof. induction l as [|e l IH]; simpl; [by rewrite app_nil_r|]. destruct e; try done. destruct a; try done. by rewrite IH, app_assoc. Qed.
Definition same4 (s s' : state) : Prop :=
  accs (log s') = accs (log s) ∧ recs (log s') = recs (log s) ∧ uq s' = uq s ∧ infl s' = infl s.
Lemma Ord_same s s' : same4 s s' → Ord s → Ord s'.
Proof. intros (H1 & H2 & H3 & H4) [D [H5 H6]]. exists D. rewrite H1, H2, H3, H4. done. Qed.
Lemma accs_nil l : (∀ m, EvAccept m ∉ l) → accs l = [].
Proof.
  induction l as [|e l IH]; [done|]. intros H. destruct e; try (apply IH; intros z Hz; by apply (H z); right). by destruct (H _ (elem_of_list_here _ _)).
Qed.
Lemma recs_nil l : (∀ r m, EvRecv r (ToOne m) ∉ l) → recs l = [].
Proof.
  induction l as [|e l IH]; [done|]. intros H. destruct e as [| | | |? []| | | | | | | | | | | |]; try (apply IH; intros zz z Hz; by apply (H zz z); right). by destruct (H _ _ (elem_of_list_here _ _)).
Qed.

Lemma infl_ins o x y (l : list one) : l !! o = Some x → inf1 y = inf1 x → concat (inf1 <$> <[o := y]> l) = concat (inf1 <$> l).
Proof. intros H1 H2. f_equal. by eapply fmap_insert_same. Qed.
Lemma infl_dead l : Σ o_live l = 0 → concat (inf1 <$> l) = [].
Proof.
  induction l as [|x l IH]; [done|]. cbn. intros H. rewrite IH by lia. destruct x as [[] st]; cbn in *; [lia|done].
Qed.
Lemma infl_only o x y (l : list one) : l !! o = Some x → o_live x = 1 → Σ o_live l ≤ 1 →
  concat (inf1 <$> l) = inf1 x ∧ concat (inf1 <$> <[o := y]> l) = inf1 y.
Proof.
  revert o. induction l as [|z l IH]; intros [|o] H Hx Hs; try done.
  - cbn in H. injection H as ->. cbn in *. rewrite infl_dead by lia. by rewrite !app_nil_r.
  - change (<[S o:=y]> (z :: l)) with (z :: <[o := y]> l). rewrite !fmap_cons. cbn [concat]. cbn in H, Hs. destruct (IH o H Hx ltac:(lia)) as [-> ->].
    pose proof (sum_lookup o_live _ _ _ H). assert (o_live z = 0) by lia. destruct z as [[] ?]; [done|]. done.
Qed.
Lemma one_send_infl o c s : (∀ m, c ≠ CNewMsg m) → infl (fst (one_send o c s)) = infl s.
Proof.
  intros Hc. unfold one_send. destruct (ones s !! o) as [[[] []]|] eqn:E; try done. cbn [fst]. unfold infl.
  autorewrite with fr_ones. prj. eapply infl_ins; [done|]. destruct c; try done. by destruct (Hc _ eq_refl).
Qed.
Lemma one_sends_infl l c s : (∀ m, c ≠ CNewMsg m) → infl (fold_left (λ s o, fst (one_send o c s)) l s) = infl s.
Proof. intros Hc. apply fold_left_proj. intros. by apply one_send_infl. Qed.
Lemma close_ones_infl l s : infl (fold_left close_one l s) = infl s.
Proof.
  apply fold_left_proj. intros s' o. unfold close_one. destruct (ones s' !! o) as [[? []]|] eqn:E; try done. unfold infl.
  autorewrite with fr_ones. prj. eapply infl_ins; [done|]. by destruct o_rx.
Qed.
Lemma infl_eq s s' : ones s' = ones s → infl s' = infl s.
Proof. unfold infl. by intros ->. Qed.
Lemma send_broadcast_infl m s : infl (send_broadcast m s) = infl s.
Proof.
  unfold send_broadcast. cbv zeta. match goal with |- infl (emit _ (set_tail _ ?x)) = _ => change (infl x = infl s) end.
  rewrite one_sends_infl by done. apply infl_eq. by repeat (progress (prj; autorewrite with fr_ones)).
Qed.
Lemma pop_broadcast_infl b s : infl (fst (pop_broadcast b s)) = infl s.
Proof.
  unfold pop_broadcast. destruct (heap_pop _ _) as [[m h]|]; [|done]. cbv zeta.
  case_match; cbn [fst]; [apply infl_eq; by repeat (progress (prj; autorewrite with fr_ones))|].
  match goal with |- context [take_waitingA ?x] => dpair (take_waitingA x) end.
  destruct r1; cbn [fst]; rewrite ?send_broadcast_infl; apply infl_eq; by repeat (progress (prj; autorewrite with fr_ones)).
Qed.
Lemma free_infl s : infl (free_chan s) = infl s.
Proof.
  unfold free_chan. cbv zeta. etrans; [apply infl_eq; repeat (progress (prj; autorewrite with fr_ones)); reflexivity|].
  rewrite close_ones_infl. apply infl_eq. by repeat (progress (prj; autorewrite with fr_ones)).
Qed.
Lemma fulfill_ones ws m s :
  (snd (fulfill ws m s) = true ∧ ∃ o w, o ∈ ws ∧ ones s !! o = Some (ON true (OEmpty w)) ∧
     ones (fst (fulfill ws m s)) = <[o := ON true (OFull (CNewMsg m))]> (ones s)) ∨
  (snd (fulfill ws m s) = false ∧ ones (fst (fulfill ws m s)) = ones s).
Proof.
  revert s; induction ws as [|o ws IH]; intros s; simpl; [by right|].
  unfold one_send. destruct (ones s !! o) as [[[] []]|] eqn:E.
  1: { cbn [fst snd]. left. split; [done|]. eexists o, _. split; [by left|]. split; [done|]. prj. by autorewrite with fr_ones. }
  all: destruct (IH s) as [(H1 & o' & w' & H2 & H3 & H4)|H]; [left; split; [done|]; exists o', w'; split; [by right|done]|by right].
Qed.

(** ** Queues of at most three equal priorities are first-in first-out *)
Lemma leb_same {A} (key : A → prio) p x y : key x = p → key y = p → leb key x y = true.
Proof. unfold leb. intros -> ->. apply prio_leb_refl. Qed.
Lemma push_same {A} (key : A → prio) p x l : key x = p → Forall (λ y, key y = p) l → heap_push key x l = l ++ [x].
Proof.
  intros Hx Hl. unfold heap_push. destruct (length l) as [|n] eqn:E; [done|]. cbn [sift_up]. destruct (decide (S n = 0)); [done|].
  rewrite <- E. rewrite list_lookup_middle by done.
  destruct ((l ++ [x]) !! ((length l - 1) / 2)) as [y|] eqn:Ey; [|done].
  rewrite (leb_same key p); [done..|]. rewrite Forall_forall in Hl.
  apply elem_of_list_lookup_2, elem_of_app in Ey as [Ey|Ey%elem_of_list_singleton]; [auto|by subst].
Qed.
Lemma pop_same {A} (key : A → prio) p l x h : length l ≤ 3 → Forall (λ y, key y = p) l → heap_pop key l = Some (x, h) → l = x :: h.
Proof.
  intros Hlen Hl. destruct l as [|a [|b [|c [|d l]]]]; cbn in Hlen; [done|..|lia].
  - by intros [= <- <-].
  - rewrite !Forall_cons in Hl. destruct Hl as (Ha & Hb & _). by intros [= <- <-].
  - rewrite !Forall_cons in Hl. destruct Hl as (Ha & Hb & Hc & _). unfold heap_pop. cbn [List.last List.removelast length sift_down].
    cbn. unfold swap. cbn.
    rewrite decide_False, decide_True by lia. cbn. unfold leb. rewrite Hb, Hc, prio_leb_refl. by intros [= <- <-].
Qed.

(** ** Steps *)
Definition g_ro (u : micro) : nat := match u with UCancel _ | URequeue _ | UOneDrop _ => 1 | _ => 0 end.
Lemma Ord_exec s t u rest s1 new : reach s → thr s !! t = Some (u :: rest) → exec u s = (s1, new) → g_ro u = 0 →
  Σ o_live (ones s) + msum g_tr s ≤ 1 → Forall (λ m, um_prio m = Valued 0) (uq s) → length (uq s) ≤ 3 →
  (∀ f m k, u = USendLock f (PU m) k → um_prio m = Valued 0) →
  cells1 s = [] → (∀ m, EvBlocked m ∉ log s1) → Ord s → Ord s1.
Proof.
  intros Hr Ht E Hro Htot Hp Hlen Hpm Hc Hnb HO.
  pose proof (msum_head g_tr s t u rest Ht) as HH.
  assert (∀ r o, u = UPollOne r o → at_ o_live (ones s) o = 1) as Hl.
  { intros r o ->. destruct (reach_own s Hr o) as [H1 _]. pose proof (msum_head (g_one o) s t _ rest Ht) as H2. cbn in H2.
    unfold isn in H2. rewrite Nat.eqb_refl in H2.
    pose proof (at_bound o_live (ones s) o 1 ltac:(intros [[] ?]; cbn; lia)). lia. }
  assert (∀ x, accs (log x) = accs (log s) → recs (log x) = recs (log s) → uq x = uq s → infl x = infl s → Ord x) as HS.
  { intros x H1 H2 H3 H4. by apply (Ord_same s). }
  assert (∀ x b, log x = log (fst (pop_broadcast b s)) ∨ (∃ r m, log x = EvRecv r (ToAll m) :: log (fst (pop_broadcast b s))) ∨ log x = EvPanic :: log (fst (pop_broadcast b s)) →
    uq x = uq s → ones x = ones (fst (pop_broadcast b s)) → Ord x) as HB.
  { intros x b H1 H2 H3. assert (accs (log x) = accs (log s) ∧ recs (log x) = recs (log s)) as [H4 H5].
    { destruct (pop_broadcast_log b s) as ([[m' l']|] & Hx); cbn [bq_evs app] in Hx; rewrite Hx in H1; destruct H1 as [-> |[(? & ? & ->)| ->]]; done. }
    apply HS; [done..|]. rewrite <- (pop_broadcast_infl b s). by apply infl_eq. }
  assert (∀ x r m, snd (pop_unicast s) = Some m → g_tr u = 1 → log x = EvRecv r (ToOne m) :: log (fst (pop_unicast s)) → uq x = uq (fst (pop_unicast s)) → ones x = ones s → Ord x) as HP.
  { intros x r m H1 H2 H3 H4 H5. destruct (pop_unicast s) as [s' r'] eqn:EP. cbn [fst snd] in *. subst r'.
    destruct (pop_unicast_cases _ _ _ (proj1 (reach_ws s Hr)) EP) as [_ [(? & _)|(m' & h & Hh & [= <-] & [(U1 & _ & U3 & _)|(c & ? & ? & _ & Hcc & _)])]]; [done| |by rewrite Hc in Hcc].
    apply (pop_same um_prio (Valued 0)) in Hh; [|done..]. destruct HO as [D [O1 O2]]. exists (D ++ [um_id m]).
    rewrite H3, U3, H4, U1. cbn [accs recs]. rewrite O1, Hh. split; [by rewrite <- app_assoc|].
    assert (infl s = []) as E0 by (apply infl_dead; lia). rewrite (infl_eq s x H5), E0, app_nil_r. rewrite E0, app_nil_r in O2. by apply sublist_app. }
  assert (∀ x, snd (pop_unicast s) = None → log x = EvPanic :: log (fst (pop_unicast s)) → uq x = uq (fst (pop_unicast s)) → ones x = ones s → Ord x) as HN.
  { intros x H1 H3 H4 H5. destruct (pop_unicast s) as [s' r'] eqn:EP. cbn [fst snd] in *. subst r'.
    destruct (pop_unicast_cases _ _ _ (proj1 (reach_ws s Hr)) EP) as [_ [(_ & -> & _)|(m' & h & Hh & ? & _)]]; [|done].
    apply HS; [by rewrite H3..|done|by apply infl_eq]. }
  exec_cases u E; try done.
  all: try (apply HS; [by repeat (progress (prj; autorewrite with fr_log))|by repeat (progress (prj; autorewrite with fr_log))|by repeat (progress (prj; autorewrite with fr_uq))|
    first [by (unfold infl; repeat (progress (prj; autorewrite with fr_ones)))|(etrans; [|by apply send_broadcast_infl]); apply infl_eq; by repeat (progress (prj; autorewrite with fr_ones))|by apply one_send_infl]]; done).
  all: try (eapply HB; [repeat (progress (prj; autorewrite with fr_log)); eauto|by repeat (progress (prj; autorewrite with fr_uq))|by repeat (progress (prj; autorewrite with fr_ones))]; done).
  - destruct HO as [D [H1 H2]]. exists (D ++ (um_id <$> uq s)). rewrite rx_shutdown_uq. destruct (rx_shutdown_evs s) as (k & Hk & He).
    assert (accs k = []) as E1 by (apply accs_nil; intros z Hz; apply He in Hz as (? & ? & ? & _); done).
    assert (recs k = []) as E2 by (apply recs_nil; intros zz z Hz; apply He in Hz as (? & ? & ? & _); done).
    rewrite Hk, accs_app, recs_app, E1, E2, !app_nil_r.
    split; [done|]. rewrite (infl_eq s (exec_rx_shutdown s)) by (unfold exec_rx_shutdown; cbv zeta; by repeat (progress (prj; autorewrite with fr_ones))). by apply sublist_inserts_r.
  - unfold try_fulfill_receiver in *. destruct (fulfill_ones (wrx s) m s) as [(_ & o & w & Ho & Ho1 & Ho2)|[H _]]; [|congruence].
    assert (uq s = []) as Hq.
    { apply (reach_w1 s Hr o); [by apply isn_elem|rewrite (at_some _ _ _ _ Ho1); cbn; lia]. }
    destruct HO as [D [H1 H2]]. rewrite Hq, app_nil_r in H1.
    destruct (infl_only o _ (ON true (OFull (CNewMsg m))) _ Ho1 eq_refl ltac:(lia)) as [H3 H4]. cbn [inf1] in H3.
    exists (D ++ [um_id m]). prj. autorewrite with fr_log fr_uq. rewrite Hq. cbn [accs recs]. rewrite H1, app_nil_r. split; [done|].
    unfold infl at 1. prj. rewrite Ho2, H4. cbn [inf1]. unfold infl in H2. rewrite H3, app_nil_r in H2. by apply sublist_app.
  - exfalso. eapply Hnb. prj. by left.
  - unfold try_fulfill_receiver in *. destruct (fulfill_ones (wrx s) m s) as [[H _]|[_ Ho]]; [congruence|].
    destruct HO as [D [H1 H2]]. exists D. unfold push_unicast. prj. autorewrite with fr_log fr_uq. cbn [accs recs].
    rewrite (push_same um_prio (Valued 0)), fmap_app, H1, app_assoc; [|by eapply Hpm|done]. split; [done|].
    unfold infl at 1. prj. rewrite Ho. done.
  - eapply HP; [done|done|..]; by repeat (progress (prj; unfold deliver; autorewrite with fr_log fr_uq fr_ones)).
  - eapply HN; [done|..]; by repeat (progress (prj; autorewrite with fr_log fr_uq fr_ones)).
  - apply HS; [done..|]. unfold infl. prj. rewrite fmap_app, concat_app. cbn. by rewrite app_nil_r.
  - eapply HP; [done|done|..]; by repeat (progress (prj; unfold deliver; autorewrite with fr_log fr_uq fr_ones)).
  - eapply HN; [done|..]; by repeat (progress (prj; autorewrite with fr_log fr_uq fr_ones)).
  - apply HS; [done..|]. unfold infl. prj. rewrite fmap_app, concat_app. cbn. by rewrite app_nil_r.
  - apply HS; [by repeat (progress (prj; autorewrite with fr_log fr_uq))..|]. unfold infl. repeat (progress (prj; autorewrite with fr_ones)). eapply infl_ins; [done|]. by destruct o_rx.
  - destruct HO as [D [H1 H2]]. pose proof (Hl _ _ eq_refl) as Hv. rewrite (at_some _ _ _ _ Em0) in Hv. destruct o_rx; [|done].
    destruct (infl_only o _ (ON false OTaken) _ Em0 eq_refl ltac:(lia)) as [H3 H4]. cbn [inf1] in H3, H4. exists D.
    unfold deliver, infl. repeat (progress (prj; autorewrite with fr_log fr_uq fr_ones)). cbn [accs recs]. split; [done|].
    rewrite H4, app_nil_r. unfold infl in H2. by rewrite H3 in H2.
  - apply HS; [by repeat (progress (unfold deliver; prj; autorewrite with fr_log fr_uq))..|]. unfold infl. repeat (progress (unfold deliver; prj; autorewrite with fr_ones)). eapply infl_ins; [done|]. by destruct o_rx.
  - apply HS; [by repeat (progress (unfold deliver; prj; autorewrite with fr_log fr_uq))..|]. unfold infl. repeat (progress (unfold deliver; prj; autorewrite with fr_ones)). eapply infl_ins; [done|]. by destruct o_rx.
  - apply HS; [by repeat (progress (unfold deliver; prj; autorewrite with fr_log fr_uq))..|]. unfold infl. repeat (progress (unfold deliver; prj; autorewrite with fr_ones)). eapply infl_ins; [done|]. by destruct o_rx.
  - apply HS; [by repeat (progress (prj; autorewrite with fr_log fr_uq))..|]. rewrite send_broadcast_infl. by apply infl_eq.
Qed.

(** ** Tokens that only dropped waiting receive futures cause *)
Lemma ro_hd h p : hol_drop h = Some p → (∀ o, h_st h ≠ HRecvWait o) → Σ g_ro p = 0.
Proof. unfold hol_drop. destruct (h_st h) as [| | |o|a|a|a|]; intros [= <-] H; try (by destruct (H o)); try destruct a; done. Qed.
Lemma ro_sd f p : sf_drop f = Some p → Σ g_ro p = 0.
Proof.
  destruct f as [x md ? ?]; unfold sf_drop; cbn; destruct x as [[?|?] k| |?| |]; intros [= <-]; destruct md as [?|[?|]|]; try done; destruct k; done.
Qed.
Lemma ro_call p s : Σ g_ro p = 0 → msum g_ro s = 0 → msum g_ro (call p s) = 0.
Proof. unfold call, msum. intros H1 H2. prj. rewrite sum_list_with_app. cbn. lia. Qed.
Lemma ro_thr s s' : thr s' = thr s → msum g_ro s = 0 → msum g_ro s' = 0.
Proof. intros H. by rewrite (msum_eq g_ro s s' H). Qed.
Lemma ro_api o s : (∀ r, o = ADropHol r → ¬ waits s r) → msum g_ro s = 0 → msum g_ro (api o s) = 0.
Proof.
  intros Hw I.
  assert (∀ p x, thr x = thr s → Σ g_ro p = 0 → msum g_ro (call p x) = 0) as HC.
  { intros p x H1 H2. apply ro_call; [done|]. by apply (ro_thr s). }
  destruct o; cbn [api]; repeat (dgoal; try done); cbv zeta; unfold add_addr; repeat dgoal.
  all: try (apply (ro_thr s); [by repeat (progress (prj; autorewrite with fr_thr))|done]; done).
  all: try (apply HC; [by repeat (progress (prj; autorewrite with fr_thr))|
    first [done|by eapply ro_sd|unfold tx_drop, rx_drop, amsg_drop in *; repeat dgoal; done]]; done).
  apply HC; [done|]. eapply ro_hd; [done|]. intros o Ho. destruct h. cbn in Ho. subst. eapply (Hw r eq_refl). repeat eexists. done.
Qed.
Lemma ro_exec u s s1 new : exec u s = (s1, new) → g_ro u = 0 → Σ g_ro new = 0.
Proof.
  intros E Hu. exec_cases u E; try done; rewrite ?sum_list_with_app, ?sum_notify; unfold rx_drop, payload_drop, amsg_drop, tx_drop; repeat dgoal; try done.
Qed.
Lemma ro_free s : msum g_ro s = 0 → msum g_ro (free_chan s) = 0.
Proof. apply ro_thr. by autorewrite with fr_thr. Qed.

(** ** Executions *)
Lemma api_uq o s : uq (api o s) = uq s.
Proof. destruct o; cbn [api]; repeat (dgoal; try done); cbv zeta; unfold add_addr; repeat dgoal; by repeat (progress (prj; autorewrite with fr_uq)). Qed.
Lemma api_infl o s : infl (api o s) = infl s.
Proof. apply infl_eq. destruct o; cbn [api]; repeat (dgoal; try done); cbv zeta; unfold add_addr; repeat dgoal; by repeat (progress (prj; autorewrite with fr_ones)). Qed.
Lemma Ord_api o s : Ord s → Ord (api o s).
Proof.
  apply Ord_same. unfold same4. rewrite api_uq, api_infl. destruct (api_evs o s) as [->|(e & -> & He)]; [done|].
  destruct e; try done.
Qed.
Lemma Ord_free s : Ord s → Ord (free_chan s).
Proof.
  intros [D [H1 H2]]. exists (D ++ (um_id <$> uq s)). rewrite free_uq, free_infl. destruct (free_evs s) as (k & Hk & He).
  assert (accs k = []) as E1 by (apply accs_nil; intros z Hz; apply He in Hz as (? & ? & ? & _); done).
  assert (recs k = []) as E2 by (apply recs_nil; intros zz z Hz; apply He in Hz as (? & ? & ? & _); done).
  rewrite Hk, accs_app, recs_app, E1, E2, !app_nil_r. split; [done|]. by apply sublist_inserts_r.
Qed.
Lemma tok_last s t f k b rest : reach s → thr s !! t = Some (USendLock f (PU k) b :: rest) → last_set s (um_id k) (um_val k).
Proof.
  intros Hr Ht.
  assert (∀ p, p k ≤ V p s) as HV.
  { intros p. pose proof (msum_head (g_p p) s t _ rest Ht) as H. cbn in H. unfold V. lia. }
  assert (um_id k < length (reps s)) as Hi.
  { apply (V_known _ _ Hr). pose proof (HV (is (um_id k))) as H. assert (is (um_id k) k = 1) by (unfold is, isn; by rewrite Nat.eqb_refl). lia. }
  destruct (lastp (um_id k) (log s)) as [v|] eqn:Hl; [|by destruct (reach_LP s Hr _ Hi)].
  pose proof (reach_V s Hr _ _ Hl) as HV0. pose proof (HV (bad (um_id k) v)) as H. rewrite HV0 in H. unfold bad in H at 1.
  destruct (N.eqb_spec (um_val k) v) as [->|]; [by apply lastp_set|]. unfold is, isn in H. rewrite Nat.eqb_refl in H. lia.
Qed.
Lemma last_default s i v : default_priorities s → last_set s i v → v = 0%N.
Proof. intros Hd (k & l & Hl & _). apply (Hd i). unfold happened. rewrite Hl. apply elem_of_app. right. by left. Qed.
Lemma orderly_snoc n c ops o : orderly n c (ops ++ [o]) → orderly n c ops ∧ length (uq (run (init c) ops)) ≤ n ∧
  receiving (run (init c) ops) ≤ 1 ∧ ∀ r, o = ADropHol r → ¬ waits (run (init c) ops) r.
Proof.
  intros H. assert (∀ k, k ≤ length ops → take k (ops ++ [o]) = take k ops) as Ht.
  { intros k Hk. by apply take_app_le. }
  split; [|specialize (H (length ops)); rewrite Ht, firstn_all in H by done; destruct H as (H1 & H2 & H3); split_and!; [done..|];
    intros r ->; apply H3; by rewrite lookup_app_r, Nat.sub_diag by done].
  intros k. cbv zeta. destruct (decide (k < length ops)) as [Hk|Hk].
  - specialize (H k). rewrite Ht in H by lia. destruct H as (H1 & H2 & H3). split_and!; [done..|]. intros r Hr. apply H3. by rewrite lookup_app_l.
  - specialize (H (length ops)). rewrite Ht in H by done. rewrite firstn_all in H. rewrite firstn_all2 by lia. destruct H as (H1 & H2 & _). split_and!; [done..|].
    intros r Hr. apply lookup_lt_Some in Hr. lia.
Qed.
Lemma Ord_run c ops : orderly 3 c ops → default_priorities (run (init c) ops) → none_blocked (run (init c) ops) →
  Ord (run (init c) ops) ∧ msum g_ro (run (init c) ops) = 0.
Proof.
  induction ops as [|o ops IH] using rev_ind; intros Ho Hd Hb.
  { split; [exists []; split; [done|]|]; done. }
  apply orderly_snoc in Ho as (Ho & Hl & Hrc & Hw). rewrite run_snoc in *. set (s := run (init c) ops) in *.
  assert (reach s) as Hr by (apply reach_run, reach_init).
  destruct (step_logx s o) as [k Hk].
  assert (default_priorities s) as Hd' by (intros m n H; apply (Hd m); unfold happened; rewrite Hk; apply elem_of_app; by right).
  assert (none_blocked s) as Hb' by (intros m H; apply (Hb m); unfold happened; rewrite Hk; apply elem_of_app; by right).
  destruct (IH Ho Hd' Hb') as [I1 I2]. clear IH. unfold step in *.
  assert (∀ x, (∀ e, e ∈ log x → e ∈ log (collect x)) → Ord x ∧ msum g_ro x = 0 → Ord (collect x) ∧ msum g_ro (collect x) = 0) as HC.
  { intros x _ [H1 H2]. unfold collect. destruct (chan_owned x); [done|]. split; [by apply Ord_free|by apply ro_free]. }
  assert (∀ x e, e ∈ log x → e ∈ log (collect x)) as HM.
  { intros x e He. unfold collect. destruct (chan_owned x); [done|]. destruct (free_logx x) as [k' ->]. apply elem_of_app. by right. }
  apply HC; [apply HM|]. pose proof (Ord_api o s I1) as A1. pose proof (ro_api o s Hw I2) as A2. destruct o; try (by split).
  unfold do_step in *. destruct (thr s !! t) as [[|u rest]|] eqn:Ht; try done.
  destruct (exec u s) as [s1 new] eqn:E. pose proof (exec_thr u s) as Hthr. rewrite E in Hthr. cbn [fst] in Hthr.
  pose proof (msum_step g_ro s t u rest new s1 Ht Hthr) as HMs. pose proof (msum_head g_ro s t u rest Ht) as HH.
  assert (g_ro u = 0) as Hu by lia. pose proof (ro_exec _ _ _ _ E Hu) as Hnew.
  split; [|lia].
  assert (Ord s1) as [D HD]; [|by exists D].
  eapply (Ord_exec s t u rest s1 new); try done.
  - pose proof (reach_tot s Hr) as HT. unfold InvTot in HT. assert (msum g_oda s ≤ msum g_ro s) as H1.
    { unfold msum. apply sum_le. intros l. apply sum_le. intros []; cbn; lia. }
    assert (Σ h_rcv (hols s) ≤ receiving s) as H2.
    { unfold receiving. rewrite (cnt_sum (λ h, match h_st h with HRecvNew | HRecvBusy | HRecvWait _ => 1 | _ => 0 end)) by (intros x; by destruct (h_st x)).
      apply sum_le. intros x. unfold h_rcv. destruct (h_st x); lia. }
    lia.
  - apply Forall_forall. intros m Hm. unfold um_prio. f_equal. eapply (last_default s); [done|]. apply prio_last; [done|]. do 2 right. by left.
  - intros f m b ->. unfold um_prio. f_equal. eapply (last_default s); [done|]. by eapply tok_last.
  - destruct (reach_blk s Hr) as [H1 _]. apply nil_length_inv. rewrite <- H1. unfold blk.
    assert (∀ l, (∀ m, EvBlocked m ∉ l) → blks l = []) as Hbl.
    { induction l as [|e l IH]; [done|]. intros H. assert (blks l = []) as Hbl by (apply IH; intros m Hm; apply (H m); by right).
      destruct e; cbn; try done. destruct (H m). by left. }
    by rewrite (Hbl _ Hb').
  - intros m Hm. apply (Hb m), HM. done.
Qed.

(** ** Sublists *)
Lemma before_split e1 e2 s : before e1 e2 s → ∃ a b c, log s = a ++ e2 :: b ++ e1 :: c.
Proof.
  intros (i & j & Hij & Hi & Hj). apply elem_of_list_split_length in Hi as (a & k & E & ->). rewrite E in Hj |- *.
  rewrite lookup_app_r in Hj by lia. destruct (j - length a) as [|x] eqn:Ex; [lia|]. cbn in Hj.
  apply elem_of_list_split_length in Hj as (b & c & -> & _). by exists a, b, c.
Qed.
Lemma sub2 {A} (a b c : list A) x y : [x; y] `sublist_of` (a ++ [x]) ++ b ++ [y] ++ c.
Proof.
  apply (sublist_app [x] _ [y]); [by apply sublist_inserts_l|]. apply sublist_inserts_l. by apply sublist_inserts_r.
Qed.
Lemma accs_before m n s : before (EvAccept m) (EvAccept n) s → [m; n] `sublist_of` accs (log s).
Proof.
  intros (a & b & c & ->)%before_split. rewrite accs_app. cbn [accs]. rewrite accs_app. cbn [accs].
  rewrite <- !app_assoc. rewrite (app_assoc _ [m]). apply sub2.
Qed.
Lemma recs_before q r x y s : before (EvRecv q (ToOne y)) (EvRecv r (ToOne x)) s → [um_id y; um_id x] `sublist_of` recs (log s).
Proof.
  intros (a & b & c & ->)%before_split. rewrite recs_app. cbn [recs]. rewrite recs_app. cbn [recs].
  rewrite <- !app_assoc. rewrite (app_assoc _ [um_id y]). apply sub2.
Qed.
Lemma recs_in r y l : EvRecv r (ToOne y) ∈ l → um_id y ∈ recs l.
Proof.
  intros (a & b & ->)%elem_of_list_split. rewrite recs_app. cbn [recs]. rewrite !elem_of_app. left; right. by left.
Qed.
Lemma sub_clash {A} (l : list A) x y : NoDup l → [x; y] `sublist_of` l → [y; x] `sublist_of` l → False.
Proof.
  induction l as [|z l IH]; intros Hn H1 H2; [by apply sublist_nil_r in H1|]. apply NoDup_cons in Hn as [Hz Hn].
  apply sublist_cons_r in H1 as [H1|(k1 & E1 & H1)]; apply sublist_cons_r in H2 as [H2|(k2 & E2 & H2)].
  - by apply IH.
  - injection E2 as -> <-. apply Hz. eapply elem_of_submseteq; [|apply sublist_submseteq, H1]. right. by left.
  - injection E1 as -> <-. apply Hz. eapply elem_of_submseteq; [|apply sublist_submseteq, H2]. right. by left.
  - injection E1 as -> <-. injection E2 as -> <-. apply Hz. eapply elem_of_submseteq; [|by apply sublist_submseteq]. by left.
Qed.
Lemma sub1 {A} (x : A) l : x ∈ l → [x] `sublist_of` l.
Proof. intros (a & b & ->)%elem_of_list_split. apply sublist_inserts_l. by apply (sublist_inserts_r b [x] [x]). Qed.
Lemma accs_cnt i l : Σ (isn i) (accs l) = Σ (e_acc i) l.
Proof. induction l as [|e l IH]; [done|]. destruct e; try done. cbn [accs]. rewrite sum_list_with_app. cbn. lia. Qed.
Lemma accs_nodup s : reach s → NoDup (accs (log s)).
Proof.
  intros Hr. apply NoDup_alt. intros i j x Hi Hj.
  assert (Σ (isn x) (accs (log s)) ≤ 1) as Hx.
  { rewrite accs_cnt. pose proof (reach_A s Hr x) as A.
    assert (Σ (e_acc x) (log s) ≤ Σ (e_pre x) (log s)) by (apply sum_le; intros []; cbn; lia).
    assert (lt1 x (length (reps s)) ≤ 1) by (unfold lt1; case_match; lia). lia. }
  revert Hx Hi Hj. generalize (accs (log s)). clear. intros l. revert i j.
  induction l as [|z l IH]; intros i j Hx Hi Hj; [done|]. cbn in Hx.
  destruct i as [|i], j as [|j]; [done|..]; cbn in Hi, Hj.
  - injection Hi as ->. pose proof (sum_lookup (isn x) _ _ _ Hj) as H. unfold isn in *. rewrite Nat.eqb_refl in *. lia.
  - injection Hj as ->. pose proof (sum_lookup (isn x) _ _ _ Hi) as H. unfold isn in *. rewrite Nat.eqb_refl in *. lia.
  - f_equal. apply IH; [lia|done..].
Qed.
Lemma order_ok c ops m n : let s := run (init c) ops in
  orderly 3 c ops → default_priorities s → none_blocked s → before (EvAccept m) (EvAccept n) s →
  (∀ q r x y, um_id x = m → um_id y = n → ¬ before (EvRecv q (ToOne y)) (EvRecv r (ToOne x)) s) ∧
  (∀ r y, um_id y = n → happened (EvRecv r (ToOne y)) s → in_queue m s = 0).
Proof.
  intros s Ho Hd Hb Hmn. destruct (Ord_run c ops Ho Hd Hb) as [[D [H1 H2]] _]. fold s in H1, H2.
  assert (reach s) as Hr by (apply reach_run, reach_init). pose proof (accs_nodup s Hr) as Hn. apply accs_before in Hmn.
  assert (recs (log s) `sublist_of` D) as H3 by (etrans; [|exact H2]; by apply sublist_inserts_r).
  split.
  - intros q r x y <- <- H. apply recs_before in H. eapply sub_clash; [exact Hn|exact Hmn|]. rewrite H1. apply sublist_inserts_r. by etrans.
  - intros r y <- Hy. apply recs_in in Hy. unfold in_queue. apply cnt_zero. intros x Hx. apply Nat.eqb_neq. intros <-.
    eapply sub_clash; [exact Hn|exact Hmn|]. rewrite H1. apply (sublist_app [um_id y] _ [um_id x]).
    + apply sub1. eapply elem_of_submseteq; [done|]. by apply sublist_submseteq.
    + apply sub1. by apply elem_of_list_fmap_1.
Qed.
(*STOP*)
