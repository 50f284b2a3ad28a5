(** Which message a send future sends, and who owns its reply channel. *)
From stdpp Require Import base numbers list list_numbers.
From Coq Require Import Lia.
From Verif Require Import Prio Heap State Model Frame Lib InvBusy Effects InvMsg.

(** ** Only one action of a future is in progress at a time *)
Lemma msum_sub g h s : (∀ u, g u ≤ h u) → msum (λ u, h u - g u) s + msum g s = msum h s.
Proof.
  intros H. unfold msum. induction (thr s) as [|l L IH]; simpl; [lia|].
  assert (Σ (λ u, h u - g u) l + Σ g l = Σ h l).
  { induction l as [|u l IHl]; simpl; [lia|]. specialize (H u). lia. }
  lia.
Qed.
Lemma busyF_only g s t u rest f :
  reach s → thr s !! t = Some (u :: rest) → g_sf f u = 1 → (∀ u, g u ≤ g_sf f u) → msum g s = g u.
Proof.
  intros Hr Ht Hu Hg. pose proof (msum_sub g (g_sf f) s Hg) as HS.
  pose proof (reach_busyF s Hr f) as HB.
  pose proof (msum_head (λ u, g_sf f u - g u) s t u rest Ht) as H1. cbn in H1.
  pose proof (msum_head g s t u rest Ht) as H2. specialize (Hg u).
  pose proof (at_bound isbusy (sfs s) f 1 ltac:(intros x; unfold isbusy; case_match; lia)). lia.
Qed.
Lemma busyF_none g s f :
  reach s → at_ isbusy (sfs s) f = 0 → (∀ u, g u ≤ g_sf f u) → msum g s = 0.
Proof.
  intros Hr Hu Hg. pose proof (msum_sub g (g_sf f) s Hg) as HS.
  pose proof (reach_busyF s Hr f) as HB. lia.
Qed.

(** ** Kinds of send futures *)
Definition fk (sf : sfut) : nat :=
  match sf_mode sf with MReturn _ => 1 | MDetached (Some _) => 2 | MDetached None => 3 | MBroadcast => 4 end.
Definition fm (sf : sfut) : nat :=
  match sf_mode sf with MReturn m | MDetached (Some m) => S m | _ => 0 end.

(** Tokens of future [f] that mention the unicast message [m]. *)
Definition f_um (m : nat) (sf : sfut) : nat :=
  match sf_st sf with SNew (PU u) _ => is m u | _ => 0 end.
Definition g_um (f m : nat) (u : micro) : nat :=
  match u with
  | USendLd1 g (PU x) _ | USendLd2 g (PU x) _ | USendLock g (PU x) _ => isn f g * is m x
  | UReplyPoll g k => isn f g * isn m k
  | _ => 0
  end.
(** Tokens that only a unicast / a broadcast future has. *)
Definition f_uni (sf : sfut) : nat := match sf_st sf with SNew (PU _) _ | SDone => 1 | _ => 0 end.
Definition g_uni (f : nat) (u : micro) : nat :=
  match u with
  | USendLd1 g (PU _) _ | USendLd2 g (PU _) _ | USendLock g (PU _) _ | USendCell1 g _ | UReplyPoll g _ => isn f g
  | _ => 0
  end.
Definition f_bro (sf : sfut) : nat := match sf_st sf with SNew (PB _) _ => 1 | _ => 0 end.
Definition g_bro (f : nat) (u : micro) : nat :=
  match u with
  | USendLd1 g (PB _) _ | USendLd2 g (PB _) _ | USendLock g (PB _) _ | USendCellA g _ => isn f g
  | _ => 0
  end.
Definition f_any (sf : sfut) : nat :=
  match sf_st sf with SNew _ _ | SWait _ | SDone | SBusy => 1 | _ => 0 end.
Definition g_rpl (f : nat) (u : micro) : nat := match u with UReplyPoll g _ => isn f g | _ => 0 end.

Definition InvK (s : state) : Prop := ∀ f m,
  (0 < at_ (f_um m) (sfs s) f + msum (g_um f m) s → at_ fm (sfs s) f = S m) ∧
  (0 < at_ f_uni (sfs s) f + msum (g_uni f) s → 1 ≤ at_ fk (sfs s) f ≤ 2) ∧
  (0 < at_ f_bro (sfs s) f + msum (g_bro f) s → at_ fk (sfs s) f = 4) ∧
  (0 < msum (g_rpl f) s → at_ fk (sfs s) f = 1) ∧
  (0 < at_ f_any (sfs s) f → at_ fk (sfs s) f ≠ 3).

Ltac g_le := intros []; cbn; unfold isn, is; repeat case_match; cbn; unfold isn; repeat case_match; try lia.

Lemma g_um_le f m u : g_um f m u ≤ g_sf f u.
Proof. destruct u; cbn; unfold is, isn; repeat case_match; lia. Qed.
Lemma g_uni_le f u : g_uni f u ≤ g_sf f u.
Proof. destruct u; cbn; unfold is, isn; repeat case_match; lia. Qed.
Lemma g_bro_le f u : g_bro f u ≤ g_sf f u.
Proof. destruct u; cbn; unfold is, isn; repeat case_match; lia. Qed.
Lemma g_rpl_le f u : g_rpl f u ≤ g_sf f u.
Proof. destruct u; cbn; unfold is, isn; repeat case_match; lia. Qed.

(** A fact about one future that is not being polled, or whose poll is executing. *)
Lemma sum4_api s f m :
  reach s → at_ isbusy (sfs s) f = 0 →
  msum (g_um f m) s = 0 ∧ msum (g_uni f) s = 0 ∧ msum (g_bro f) s = 0 ∧ msum (g_rpl f) s = 0.
Proof.
  intros Hr Hb. split_and!; eapply (busyF_none _ _ f); eauto using g_um_le, g_uni_le, g_bro_le, g_rpl_le.
Qed.

Lemma reach_K s : reach s → InvK s.
Proof.
  revert s. apply reach_inv; unfold InvK.
  - intros c f m. unfold at_. cbn. destruct f; cbn; lia.
  - intros s o Hr I f m. specialize (I f m). destruct I as (I1 & I2 & I3 & I4 & I5).
    assert (at_ isbusy (sfs s) f = 0 → Σ (Σ (g_um f m)) (thr s) = 0 ∧ Σ (Σ (g_uni f)) (thr s) = 0 ∧
      Σ (Σ (g_bro f)) (thr s) = 0 ∧ Σ (Σ (g_rpl f)) (thr s) = 0) as HB by (by apply sum4_api).
    do_api o ltac:(autorewrite with fr_sfs).
    all: try rewrite (at_ge isbusy (sfs s)) in HB by lia.
    all: try (unfold isn in *; case_eqb; try destruct p; try done; cbn in *; lia).
    all: destruct HB as (B1 & B2 & B3 & B4); [done|]; rewrite ?B1, ?B2, ?B3, ?B4 in *; clear B1 B2 B3 B4.
    all: unfold is, fm, fk in *; cbn in *; repeat match goal with x : smode |- _ => destruct x as [|[]|] | x : option nat |- _ => destruct x end; try destruct p; cbn in *;
      unfold isn in *; rewrite ?Nat.eqb_refl; case_eqb; subst; cbn in *; try lia.
  - intros s t u rest s1 new Hr I Ht E Hthr f m. specialize (I f m). destruct I as (I1 & I2 & I3 & I4 & I5).
    pose proof (msum_step (g_um f m) s t u rest new s1 Ht Hthr) as M1.
    pose proof (msum_step (g_uni f) s t u rest new s1 Ht Hthr) as M2.
    pose proof (msum_step (g_bro f) s t u rest new s1 Ht Hthr) as M3.
    pose proof (msum_step (g_rpl f) s t u rest new s1 Ht Hthr) as M4.
    assert (∀ g, g_sf g u = 1 → f = g →
      at_ f_any (sfs s) g = 1 ∧
      at_ f_uni (sfs s) g = 0 ∧ at_ f_bro (sfs s) g = 0 ∧ at_ (f_um m) (sfs s) g = 0 ∧
      msum (g_um g m) s = g_um g m u ∧ msum (g_uni g) s = g_uni g u ∧
      msum (g_bro g) s = g_bro g u ∧ msum (g_rpl g) s = g_rpl g u ∧
      ∃ sf, sfs s !! g = Some sf) as HB.
    { intros g Hg <-. destruct (busyF_at _ _ _ _ _ Hr Ht Hg) as (sf & H1 & H2).
      rewrite !(at_some _ _ _ _ H1). unfold f_any, f_uni, f_bro, f_um. rewrite H2.
      split_and!; try done; try (by exists sf);
      eapply busyF_only; eauto using g_um_le, g_uni_le, g_bro_le, g_rpl_le. }
    revert M1 M2 M3 M4.
    generalize (msum (g_um f m) (set_thr (<[t:=new ++ rest]> (thr s1)) s1)); intros n1.
    generalize (msum (g_uni f) (set_thr (<[t:=new ++ rest]> (thr s1)) s1)); intros n2.
    generalize (msum (g_bro f) (set_thr (<[t:=new ++ rest]> (thr s1)) s1)); intros n3.
    generalize (msum (g_rpl f) (set_thr (<[t:=new ++ rest]> (thr s1)) s1)); intros n4.
    intros M1 M2 M3 M4.
    prj. clear Hthr.
    do_exec u E M1 ltac:(autorewrite with fr_sfs).
    all: rewrite ?sum_list_with_app in M2, M3, M4; 
      try (rewrite sum_notify in M2 by done; rewrite sum_notify in M3 by done; rewrite sum_notify in M4 by done);
      cbn -[Nat.eqb Nat.sub] in M2, M3, M4.
    all: try (split_and!; lia).
    all: match goal with H : thr ?s !! ?t = Some (?u :: ?rest) |- _ =>
      match eval cbn in (λ f, g_sf f u) with
      | context [?f0 =? _] => destruct (Nat.eqb_spec f0 f) as [->|];
          [destruct (HB f ltac:(cbn; rewrite ?Nat.eqb_refl; done) eq_refl)
             as (B0 & B1 & B2 & B3 & B4 & B5 & B6 & B7 & sf & Hsf)
          |unfold isn in *; cbn in *; case_eqb; try lia; try done]
      end end.
    all: destruct sf as [st md lv wk]; simplify_eq; ats; unfold fm, fk, f_um, f_uni, f_bro, f_any, is, isn in *; cbn in *; rewrite ?Nat.eqb_refl in *.
    all: try (destruct md as [|[]|]; cbn in *; simplify_eq; case_eqb; lia).
  - intros s Hr I Ho f m.
    rewrite (msum_eq (g_um f m) s), (msum_eq (g_uni f) s), (msum_eq (g_bro f) s), (msum_eq (g_rpl f) s)
      by (autorewrite with fr_thr; done).
    autorewrite with fr_sfs. apply I.
Qed.
