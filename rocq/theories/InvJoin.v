(** Join handles and the listeners behind them. *)
From stdpp Require Import base numbers list list_numbers.
From Coq Require Import Lia.
From Verif Require Import Prio Heap State Model HeapProofs Frame Lib InvBusy InvCount Effects InvMsg InvOne InvFut InvDisc Mono Events WakeRel FinalE FinalF InvWake InvFresh.

(** ** A listener belongs to one join handle *)
Definition j_l (l : nat) (x : jhandle) : nat := match jh_l x with Some k => isn l k | None => 0 end.
Definition g_j (l : nat) (u : micro) : nat := match u with UJoinLd1 k | UJoinLd2 k => isn l k | _ => 0 end.
Definition InvJU (s : state) : Prop := ∀ l, Σ (j_l l) (jhs s) + msum (g_j l) s ≤ lt1 l (length (lsts s)).
Lemma shutdown_lsts s : lsts (exec_rx_shutdown s) = (λ l, LS true (if ls_notified l then ls_wk l else None)) <$> lsts s.
Proof.
  assert (∀ l x, lsts (fold_left (λ s l, if ls_notified l then s else wake (ls_wk l) s) l x) = lsts x) as H; cycle 1.
  { unfold exec_rx_shutdown. cbv zeta. repeat (progress (prj; autorewrite with fr_lsts)). rewrite ?H. done. }
  induction l as [|y l IH]; intros x; [done|]. cbn. rewrite IH. destruct (ls_notified y); [done|]. by destruct (ls_wk y).
Qed.
Lemma exec_lsts u s s1 new : exec u s = (s1, new) → (g_rs u = 0 ∧ lsts s1 = lsts s) ∨ (u = URxShutdown ∧ lsts s1 = (λ l, LS true (if ls_notified l then ls_wk l else None)) <$> lsts s).
Proof.
  intros E. exec_cases u E; repeat (progress (prj; autorewrite with fr_lsts)); try (by left). right. split; [done|apply shutdown_lsts].
Qed.
Lemma exec_lsts_len u s s1 new : exec u s = (s1, new) → length (lsts s1) = length (lsts s).
Proof.
  intros E. destruct (exec_lsts _ _ _ _ E) as [[_ ->]|[_ ->]]; [done|]. by rewrite fmap_length.
Qed.
Lemma reach_ju s : reach s → InvJU s.
Proof.
  revert s. apply reach_inv; unfold InvJU.
  - intros c l. cbn. lia.
  - intros s o Hr I l. specialize (I l). do_api o ltac:(autorewrite with fr_jhs fr_lsts; rewrite ?list_insert_insert).
    all: try (rewrite app_length; cbn [length]; rewrite Nat.add_1_r, lt1_S; unfold isn in *; case_eqb; lia).
    all: try (rewrite insert_length).
    all: unfold j_l in *; cbn in *; try lia.
  - intros s t u rest s1 new Hr I Ht E Hthr l. specialize (I l). pose proof (msum_step (g_j l) s t u rest new s1 Ht Hthr) as HM.
    prj. rewrite (exec_lsts_len _ _ _ _ E). revert HM. generalize (msum (g_j l) (set_thr (<[t:=new ++ rest]> (thr s1)) s1)). intros n HM. clear Hthr Ht.
    do_exec u E HM ltac:(autorewrite with fr_jhs).
    all: unfold j_l, isn in *; cbn in *; try lia.
    all: repeat case_match; cbn in *; try lia.
  - intros s Hr I Ho l. rewrite (msum_eq (g_j l) s) by (autorewrite with fr_thr; done). by autorewrite with fr_jhs fr_lsts.
Qed.
(** ** Resolved only if disconnected *)
Definition InvJD (s : state) : Prop :=
  (∀ j x, jhs s !! j = Some x → jh_l x = None → txc s = 0 ∨ rxc s = 0) ∧ (∀ l y, lsts s !! l = Some y → ls_notified y = true → rxc s = 0).
Lemma exec_jhs u s s1 new j x : exec u s = (s1, new) → jhs s1 !! j = Some x →
  jhs s !! j = Some x ∨ (j = length (jhs s) ∧ ∃ l, (u = UJoinLd1 l ∧ rxc s = 0 ∧ jh_l x = None) ∨ (u = UJoinLd2 l ∧ ((txc s = 0 ∧ jh_l x = None) ∨ (txc s ≠ 0 ∧ jh_l x = Some l)))).
Proof.
  intros E. exec_cases u E; repeat (progress (prj; autorewrite with fr_jhs)); try (by left).
  all: intros [H|[Hl H]]%lookup_app_Some; [by left|]; right; apply list_lookup_singleton_Some in H as [Hj <-].
  all: split; [lia|]. 
  all: exists l; first [left; split_and!; [done|by apply Nat.eqb_eq|done] | right; split; [done|]; first [left; split; [by apply Nat.eqb_eq|done]|right; split; [by apply Nat.eqb_neq|done]]].
Qed.
Lemma api_lsts o s l y : lsts (api o s) !! l = Some y → ls_notified y = true → lsts s !! l = Some y.
Proof.
  destruct o; cbn [api]; repeat (dgoal; try done); cbv zeta; unfold add_addr; repeat dgoal; repeat (progress (prj; autorewrite with fr_lsts)); try done.
  all: try (intros [H|[_ H]]%lookup_app_Some; [done|]; by apply list_lookup_singleton_Some in H as [_ <-]).
  all: by intros [(-> & <- & _)|[_ H]]%list_lookup_insert_Some.
Qed.
Lemma api_lsts_fwd o s l y : lsts s !! l = Some y → ls_notified y = true → lsts (api o s) !! l = Some y.
Proof.
  destruct o; cbn [api]; repeat (dgoal; try done); cbv zeta; unfold add_addr; repeat dgoal; repeat (progress (prj; autorewrite with fr_lsts)); try done.
  all: try (intros; by apply lookup_app_l_Some).
  intros H1 H2. rewrite list_lookup_insert_ne; [done|]. intros ->. by simplify_eq.
Qed.
Lemma api_jhs o s j x : jhs (api o s) !! j = Some x →
  ∃ y, jhs s !! j = Some y ∧ ((jh_l x = jh_l y ∧ (jh_wk x = jh_wk y ∨ (o = APollJoin j ∧ jh_wk x = nwk s))) ∨ (jh_l x = None ∧ ∃ l, jh_l y = Some l ∧ ∀ z, lsts s !! l = Some z → ls_notified z = true)).
Proof.
  destruct o; cbn [api]; repeat (dgoal; try by eauto 10); cbv zeta; unfold add_addr; repeat dgoal; repeat (progress (prj; autorewrite with fr_jhs)); eauto 10.
  all: rewrite ?list_insert_insert; intros [(-> & <- & _)|[_ H]]%list_lookup_insert_Some; [|by eauto 10].
  all: eexists; (split; [exact Em|]); prj.
  all: try (left; split; [done|first [by left|by right]]).
  all: right; (split; [done|]); eexists; (split; [done|]); intros z Hz; by simplify_eq.
Qed.
Lemma reach_jd s : reach s → InvJD s.
Proof.
  revert s. apply reach_inv; unfold InvJD.
  - intros c. split; intros i y; cbn; by rewrite lookup_nil.
  - intros s o Hr [I1 I2]. split.
    + intros j x Hj Hx. destruct (api_jhs _ _ _ _ Hj) as (y & Hy & [[E _]|(_ & l & Hl & Hz)]).
      * destruct (I1 j y Hy ltac:(congruence)) as [H|H]; [left; by apply txc0_api|right; by apply rxc0_api].
      * right. apply rxc0_api; [done|]. assert (∃ z, lsts s !! l = Some z) as [z Hlz].
        { apply lookup_lt_is_Some. pose proof (reach_ju s Hr l) as HU. pose proof (sum_lookup (j_l l) _ _ _ Hy) as HF. unfold j_l in HF at 1. rewrite Hl in HF. unfold isn in HF. rewrite Nat.eqb_refl in HF.
          unfold lt1 in HU. destruct (Nat.ltb_spec l (length (lsts s))); [done|lia]. }
        eapply I2; [exact Hlz|by apply Hz].
    + intros l y Hl Hn. apply rxc0_api; [done|]. eapply I2; [|exact Hn]. by eapply api_lsts.
  - intros s t u rest s1 new Hr [I1 I2] Ht E Hthr. prj. assert (s1 = fst (exec u s)) as E1 by (by rewrite E). split.
    + intros j x Hj Hx. destruct (exec_jhs _ _ _ _ _ _ E Hj) as [Hj'|(_ & l & [(-> & H0 & _)|(-> & [[H0 _]|[_ H]])])].
      * rewrite E1. destruct (I1 _ _ Hj' Hx); [left; by apply txc0_exec|right; by apply rxc0_exec].
      * right. rewrite E1. by apply rxc0_exec.
      * left. rewrite E1. by apply txc0_exec.
      * congruence.
    + intros l y Hl Hn. rewrite E1. apply rxc0_exec. destruct (exec_lsts _ _ _ _ E) as [[_ El]|[-> El]]; rewrite El in Hl.
      * by eapply I2.
      * apply (reach_rs s Hr). pose proof (msum_head g_rs s t _ rest Ht) as HM. cbn in HM. lia.
  - intros s Hr [I1 I2] Ho. autorewrite with fr_jhs fr_lsts fr_txc fr_rxc. done.
Qed.

(** ** After the end every listener is notified *)
Definition g_j2 (l : nat) (u : micro) : nat := match u with UJoinLd2 k => isn l k | _ => 0 end.
Definition l_n (y : listener) : nat := if ls_notified y then 1 else 0.
Definition InvJN (s : state) : Prop := ∀ l, 0 < Σ (j_l l) (jhs s) + msum (g_j2 l) s → rxc s = 0 → msum g_rs s = 0 → at_ l_n (lsts s) l = 1.
Lemma g_j2_le l s : msum (g_j2 l) s ≤ msum (g_j l) s.
Proof. apply msum_le. intros []; cbn; lia. Qed.
Lemma reach_jn s : reach s → InvJN s.
Proof.
  revert s. apply reach_inv; unfold InvJN.
  - intros c l. cbn. lia.
  - intros s o Hr I l. rewrite api_rs. intros H1 H2 H3.
    assert (0 < rxc s → 0 < rxc (api o s)) as Hrx. { destruct o; cbn [api]; repeat (dgoal; try done); cbv zeta; unfold add_addr; repeat dgoal; repeat (progress (prj; autorewrite with fr_rxc)); lia. }
    assert (at_ l_n (lsts s) l = 1) as HA.
    { apply I; [|lia|done]. revert H1. clear -Hr. do_api o ltac:(autorewrite with fr_jhs; rewrite ?list_insert_insert). all: unfold j_l in *; cbn in *; try lia. }
    unfold at_ in HA. destruct (lsts s !! l) as [y|] eqn:El; [|done]. unfold l_n in HA. destruct (ls_notified y) eqn:En; [|done].
    unfold at_. rewrite (api_lsts_fwd o s l y El En). unfold l_n. by rewrite En.
  - intros s t u rest s1 new Hr I Ht E Hthr l. specialize (I l). pose proof (msum_step (g_j2 l) s t u rest new s1 Ht Hthr) as HM. pose proof (msum_step g_rs s t u rest new s1 Ht Hthr) as HM2.
    prj. destruct (exec_lsts _ _ _ _ E) as [[Hu El]|[-> El]]; rewrite El.
    + intros H1 H2 H3. apply I; clear I; revert H1 H2 H3 HM HM2;
        generalize (msum (g_j2 l) (set_thr (<[t:=new ++ rest]> (thr s1)) s1)) (msum g_rs (set_thr (<[t:=new ++ rest]> (thr s1)) s1)); intros n1 n2 H1 H2 H3 HM HM2; clear Hthr Ht El.
      all: revert H1 H2; exec_cases u E; repeat (progress (prj; autorewrite with fr_jhs fr_rxc)); intros H1 H2; try (rewrite sum_notify in HM, HM2 by done); try lia.
      all: rewrite ?sum_list_with_app in *; sums; unfold rx_drop, payload_drop, amsg_drop, tx_drop in *.
      all: repeat match goal with H : context [Σ _ (match ?x with _ => _ end)] |- _ => destruct x end; cbn -[Nat.eqb Nat.sub] in *; try done; try lia.
      all: try (apply Nat.eqb_neq in Em; lia).
    + intros H1 H2 H3. assert (∃ y, lsts s !! l = Some y) as [y Hy].
      { apply lookup_lt_is_Some. pose proof (reach_ju s Hr l) as HU. pose proof (g_j2_le l s) as HL.
        assert (jhs s1 = jhs s) as Ej by (cbn [exec] in E; injection E as <- <-; by repeat (progress (prj; autorewrite with fr_jhs))). assert (new = []) as -> by (cbn [exec] in E; by injection E).
        cbn in HM. rewrite Ej in H1.
        cbn in H1. unfold lt1 in HU. destruct (Nat.ltb_spec l (length (lsts s))); [done|lia]. }
      unfold at_. by rewrite list_lookup_fmap, Hy.
  - intros s Hr I Ho l. rewrite (msum_eq (g_j2 l) s), (msum_eq g_rs s) by (autorewrite with fr_thr; done). autorewrite with fr_jhs fr_lsts fr_rxc. apply I.
Qed.

(** ** The waker of a pending poll *)
Definition InvWJ (s : state) : Prop :=
  (∀ j b, EvJoin j b ∈ log s → j < length (jhs s)) ∧
  (∀ j l k w, jhs s !! j = Some (JH (Some l) k w) → EvJoin j false ∈ log s → good pdl (lsts s) l w (wakes s)).
Lemma exec_jhs_len u s s1 new : exec u s = (s1, new) → length (jhs s) ≤ length (jhs s1).
Proof. intros E. exec_cases u E; repeat (progress (prj; autorewrite with fr_jhs)); rewrite ?app_length; lia. Qed.
Lemma api_jhs_len o s : length (jhs (api o s)) = length (jhs s).
Proof. destruct o; cbn [api]; repeat (dgoal; try done); cbv zeta; unfold add_addr; repeat dgoal; repeat (progress (prj; autorewrite with fr_jhs)); rewrite ?insert_length; done. Qed.
Lemma own_no_l u s l : KL l ∉ own u s.
Proof. destruct u; cbn; try case_match; rewrite ?elem_of_list_singleton; try apply not_elem_of_nil; done. Qed.
Lemma reach_wj s : reach s → InvWJ s.
Proof.
  revert s. apply reach_inv; unfold InvWJ.
  - intros c. split; [by intros j b ?%elem_of_nil|]. intros j l k w. cbn. by rewrite lookup_nil.
  - intros s o Hr [I1 I2]. split.
    + intros j b He. rewrite api_jhs_len. destruct (api_evs o s) as [El|(e & El & Hs)]; rewrite El in He; [by eapply I1|].
      apply elem_of_cons in He as [<-|He]; [|by eapply I1]. cbn in Hs. subst o. rewrite <- (api_jhs_len (APollJoin j) s). clear -El. revert El.
      cbn [api]. destruct (jhs s !! j) as [[l [] w]|] eqn:E; intros El.
      2,3: exfalso; assert (length (log s) = length (EvJoin j b :: log s)) as HL by (by rewrite <- El); cbn in HL; lia.
      destruct l; [destruct (lsts s !! n) as [[[] ?]|]|]; prj; rewrite ?insert_length; by eapply lookup_lt_Some.
    + intros j l k w Hj He. destruct (api_jhs _ _ _ _ Hj) as ([l' k' w'] & Hy & [[El Ew]|[? _]]); [|done]. cbn in El, Ew. subst l'.
      assert (o = APollJoin j ∨ (o ≠ APollJoin j ∧ w = w')) as [-> |[Hn ->]].
      { destruct Ew as [<-|[-> ->]]; [|by left]. destruct o; try (by right). destruct (decide (j0 = j)) as [->|]; [by left|]. right. split; [congruence|done]. }
      * destruct k'. 2: { assert (api (APollJoin j) s = s) as Ea by (cbn [api]; by rewrite Hy). rewrite Ea in *. by eapply I2. }
        revert Hj. cbn [api]. rewrite Hy. destruct (lsts s !! l) as [[[] ?]|] eqn:Es; prj; rewrite ?list_insert_insert, list_lookup_insert by (by eapply lookup_lt_Some); intros [= <- <-].
        exists (LS false (Some (nwk s))). rewrite list_lookup_insert by (by eapply lookup_lt_Some). split; [done|by left].
      * destruct (api_rel o s) as (R1 & _ & _ & _ & _ & R6). eapply good_tr; [exact R6|exact R1| |eapply I2; [exact Hy|]].
        -- intros (j' & l2 & k2 & w2 & -> & Hj' & [= <-])%own_api_in. assert (j' ≠ j) as Hne by congruence.
           pose proof (reach_ju s Hr l) as HU. pose proof (lt1_le l (length (lsts s))) as HL. pose proof (sum_two (j_l l) _ _ _ _ _ Hj' Hy Hne) as H2.
           unfold j_l in H2 at 1 2. cbn in H2. unfold isn in H2. rewrite Nat.eqb_refl in H2. lia.
        -- destruct (api_evs o s) as [El|(e & El & Hs)]; rewrite El in He; [done|]. apply elem_of_cons in He as [<-|He]; [|done]. done.
  - intros s t u rest s1 new Hr [I1 I2] Ht E Hthr. prj. destruct (exec_evs _ _ _ _ E) as (k0 & Ek & Hk).
    assert (∀ j b, EvJoin j b ∈ log s1 → EvJoin j b ∈ log s) as Hlog. { intros j b He. rewrite Ek in He. apply elem_of_app in He as [He|He]; [|done]. by apply Hk in He. }
    pose proof (exec_jhs_len _ _ _ _ E) as HL. split.
    + intros j b He%Hlog. apply I1 in He. lia.
    + intros j l k w Hj He%Hlog. destruct (exec_jhs _ _ _ _ _ _ E Hj) as [Hj'|(-> & _)]; [|apply I1 in He; lia].
      destruct (exec_rel _ _ _ _ E) as (R1 & _ & _ & _ & _ & R6). eapply good_tr; [exact R6|exact R1|apply own_no_l|by eapply I2].
  - intros s Hr [I1 I2] Ho. destruct (free_evs s) as (k0 & Ek & Hk).
    assert (∀ j b, EvJoin j b ∈ log (free_chan s) → EvJoin j b ∈ log s) as Hlog. { intros j b He. rewrite Ek in He. apply elem_of_app in He as [He|He]; [|done]. by apply Hk in He as (? & ? & [=] & _). }
    autorewrite with fr_jhs. split. { intros j b He%Hlog. by eapply I1. }
    intros j l k w Hj He%Hlog. destruct (free_rel [] s) as (R1 & _ & _ & _ & _ & R6). eapply good_tr; [exact R6|exact R1|apply not_elem_of_nil|by eapply I2].
Qed.
