(** A send future waits for the cell of its own message. *)
From stdpp Require Import base numbers list list_numbers.
From Coq Require Import Lia.
From Verif Require Import Prio Heap State Model HeapProofs Frame Lib InvBusy Effects InvMsg InvFut InvCell WaitSpec InvWs InvBlk Mono.

Definition g_fc (f c : nat) (u : micro) : nat := match u with USendCell1 g k => isn f g * isn c k | _ => 0 end.
Lemma g_fc_le f c u : g_fc f c u ≤ g_sf f u.
Proof. destruct u; cbn; unfold is, isn; repeat case_match; lia. Qed.

Definition InvFC (s : state) : Prop := ∀ f c,
  0 < at_ (f_c1 c) (sfs s) f + msum (g_fc f c) s →
  c < length (cells1 s) ∧ at_ fm (sfs s) f = S (bmsg_of s c).

Lemma cells1_len_exec u s s1 new : reach s → exec u s = (s1, new) → length (cells1 s) ≤ length (cells1 s1) ∧
  (∀ c, c < length (cells1 s) → bmsg_of s1 c = bmsg_of s c).
Proof.
  intros Hr E. pose proof (reach_ws s Hr) as (W1 & _).
  assert (∃ k, blk s1 = blk s ++ k ∧ length (cells1 s1) = length (cells1 s) + length k) as (k & Hk1 & Hk2).
  { exec_cases u E.
    all: try (exists []; rewrite app_nil_r; unfold blk; repeat (progress (prj; autorewrite with fr_log fr_cells1));
              rewrite ?insert_length; cbn; split; [done|lia]).
    all: try match goal with |- context [pop_broadcast ?b ?x] => 
      exists []; rewrite app_nil_r; pose proof (blk_pop_broadcast b x) as HB; unfold blk in *; repeat (progress (prj; autorewrite with fr_log fr_cells1));
      cbn [blks]; rewrite HB; cbn; split; [done|lia] end.
    all: try match goal with |- context [pop_unicast ?x] => 
      exists []; rewrite app_nil_r; pose proof (blk_pop_unicast x) as HB; 
      unfold blk in *; repeat (progress (prj; autorewrite with fr_log fr_cells1));
      cbn [blks]; rewrite HB; split; [done|];
      destruct (pop_unicast x) as [s9 r9] eqn:E9; 
      destruct (pop_unicast_cases _ _ _ W1 E9) as [_ [(A0 & A1 & A2)|(m9 & h9 & A0 & A1 & [(A2 & A3 & A4)|(k9 & m8 & w9 & A2 & A3 & A4 & A5)])]];
      cbn [fst]; rewrite ?A1, ?A3, ?A4, ?insert_length; cbn; lia end.
    1: { exists []. rewrite blk_rx_shutdown, app_nil_r, rx_shutdown_cells1, fmap_length by done. cbn. split; [done|lia]. }
    exists [um_id m]. unfold blk. repeat (progress (prj; autorewrite with fr_log fr_cells1)). rewrite app_length. cbn. split; [done|lia]. }
  split; [lia|]. intros c Hc. unfold bmsg_of, at_. rewrite Hk1. pose proof (reach_blk s Hr) as [I0 _].
  by rewrite lookup_app_l by lia.
Qed.

Lemma blocked_msg s s1 f m k new :
  reach s → exec (USendLock f (PU m) k) s = (s1, new) → length (cells1 s) < length (cells1 s1) →
  bmsg_of s1 (length (cells1 s)) = um_id m.
Proof.
  intros Hr. cbn [exec exec_send_lock]. dpair (try_fulfill_receiver m s). destruct r1.
  { intros [= <- <-]. autorewrite with fr_cells1. lia. }
  destruct (unicast_full _); intros [= <- <-].
  2: { autorewrite with fr_cells1. lia. }
  intros _. unfold bmsg_of, blk. prj. autorewrite with fr_log. cbn [blks]. fold (blk s).
  pose proof (reach_blk s Hr) as [I0 _]. rewrite at_snoc, I0. by rewrite Nat.eqb_refl.
Qed.

Lemma reach_FC s : reach s → InvFC s.
Proof.
  revert s. apply reach_inv; unfold InvFC.
  - intros c f i. unfold at_. cbn. destruct f; cbn; lia.
  - intros s o Hr I f c. specialize (I f c).
    assert (cells1 (api o s) = cells1 s ∧ blk (api o s) = blk s) as [Ec Eb].
    { split; destruct o; cbn [api]; repeat (dgoal; try done); cbv zeta; unfold add_addr, blk; repeat dgoal;
      repeat (progress (prj; autorewrite with fr_cells1 fr_log)); done. }
    rewrite Ec. unfold bmsg_of. rewrite Eb. fold (bmsg_of s c). generalize dependent (bmsg_of s c). intros bm I. clear Ec Eb.
    generalize dependent (length (cells1 s)). intros n I.
    assert (at_ isbusy (sfs s) f = 0 → Σ (Σ (g_fc f c)) (thr s) = 0) as HB
      by (intros; by eapply (busyF_none _ _ f); eauto using g_fc_le).
    do_api o ltac:(autorewrite with fr_sfs).
    all: try rewrite (at_ge isbusy (sfs s)) in HB by lia.
    all: try (unfold isn in *; case_eqb; try done; cbn in *; lia).
    all: try (specialize (HB eq_refl)); unfold fm, f_c1 in *; cbn in *; repeat match goal with x : smode |- _ => destruct x as [|[]|] | x : option nat |- _ => destruct x end; cbn in *;
      unfold isn in *; rewrite ?Nat.eqb_refl; case_eqb; subst; cbn in *; try lia.
  - intros s t u rest s1 new Hr I Ht E Hthr f c. specialize (I f c).
    pose proof (msum_step (g_fc f c) s t u rest new s1 Ht Hthr) as HM.
    pose proof (msum_head (g_fc f c) s t u rest Ht) as HH.
    destruct (cells1_len_exec _ _ _ _ Hr E) as [HL1 HL2]. specialize (HL2 c).
    assert (∀ g, g_sf g u = 1 → f = g →
      at_ (f_c1 c) (sfs s) g = 0 ∧ msum (g_fc g c) s = g_fc g c u ∧
      ∃ sf, sfs s !! g = Some sf) as HB.
    { intros g Hg <-. destruct (busyF_at _ _ _ _ _ Hr Ht Hg) as (sf & H1 & H2).
      rewrite !(at_some _ _ _ _ H1). unfold f_c1. rewrite H2.
      split_and!; try done; try (by exists sf); eapply busyF_only; eauto using g_fc_le. }
    assert (∀ f m k, u = USendLock f (PU m) k → length (cells1 s) < length (cells1 s1) →
      bmsg_of s1 (length (cells1 s)) = um_id m) as HN by (intros; subst; by eapply blocked_msg).
    pose proof (reach_K s Hr f) as HK.
    pose proof (λ g, msum_head g s t u rest Ht) as HHg.
    change (bmsg_of (set_thr (<[t:=new ++ rest]> (thr s1)) s1) c) with (bmsg_of s1 c).
    generalize dependent (bmsg_of s1). intros bm HL2 HN. prj. clear Hthr.
    revert HM. generalize (msum (g_fc f c) (set_thr (<[t:=new ++ rest]> (thr s1)) s1)). intros n HM.
    do_exec u E HM ltac:(autorewrite with fr_sfs fr_cells1).
    all: try (intros; destruct I; [lia|]; split; [lia|]; rewrite HL2 by lia; done).
    all: intros HX; unfold isn in *; case_eqb; subst; rewrite ?app_length, ?insert_length;
      try (destruct I; [lia|]; split; [lia|]; rewrite HL2 by lia; done).
    all: try (destruct I as [I1 I2]; [lia|]; split;
      [eapply Nat.lt_le_trans; [exact I1|]; etrans; [exact HL1|]; repeat (progress (prj; autorewrite with fr_cells1)); done
      |rewrite HL2 by lia; done]).
    all: destruct (HB f ltac:(cbn; unfold isn; rewrite ?Nat.eqb_refl; done) eq_refl) as (B0 & B1 & sf & Hsf).
    all: pose proof (HHg (g_uni f)) as HU; pose proof (HHg (g_bro f)) as HO; cbn in HU, HO; unfold isn in HU, HO; rewrite ?Nat.eqb_refl in HU; rewrite ?Nat.eqb_refl in HO.
    all: try (pose proof (HK 0) as (_ & _ & HK3 & _); specialize (HK3 ltac:(lia))).
    all: try (destruct sf as [st md lv wk]; simplify_eq; ats; unfold fm, fk, f_c1 in *; cbn in *; unfold isn in *; rewrite ?Nat.eqb_refl in *;
      destruct md as [|[]|]; cbn in *; case_eqb; subst; try lia;
      (destruct I as [I1 I2]; [lia|]; split; [lia|]; rewrite HL2 by lia; done)).
    all: autorewrite with fr_cells1; cbn; split; [lia|]; rewrite (HN f m _ eq_refl)
      by (prj; autorewrite with fr_cells1; rewrite app_length; cbn; lia);
      destruct (HK (um_id m)) as [HK1 _]; apply HK1;
      pose proof (HHg (g_um f (um_id m))) as HG; cbn in HG; unfold is, isn in HG; rewrite !Nat.eqb_refl in HG; lia.
  - intros s Hr I Ho f c. rewrite (msum_eq (g_fc f c) s) by (autorewrite with fr_thr; done).
    destruct (reach_ws s Hr) as (W1 & _). rewrite free_cells1, fmap_length by done. autorewrite with fr_sfs.
    unfold bmsg_of. rewrite blk_free. apply I.
Qed.

