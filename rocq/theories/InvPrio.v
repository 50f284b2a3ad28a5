(** The priority a message carries is the last one set. *)
From stdpp Require Import base numbers list list_numbers.
From Coq Require Import Lia.
From Verif Require Import Prio Heap State Model Frame Lib InvBusy Effects InvMsg InvMsg2 Mono Events InvErr FinalF.

Definition f_p (p : umsg → nat) (f : sfut) : nat := match sf_st f with SNew (PU m) _ => p m | _ => 0 end.
Definition h_p (p : umsg → nat) (h : holder) : nat :=
  match h_st h with HMsg (ToOne m) | HDispNew (ToOne m) | HRun (ToOne m) => p m | _ => 0 end.
Definition g_p (p : umsg → nat) (u : micro) : nat :=
  match u with
  | USendLd1 _ (PU m) _ | USendLd2 _ (PU m) _ | USendLock _ (PU m) _ | URequeue m | UDropMsg m _ => p m
  | _ => 0
  end.
Definition e_p (p : umsg → nat) (e : ev) : nat :=
  match e with EvRecv _ (ToOne m) | EvHandle _ (ToOne m) => p m | _ => 0 end.
(** All copies of messages, weighted. *)
Definition V (p : umsg → nat) (s : state) : nat :=
  Σ (f_p p) (sfs s) + Σ (ccell p) (cells1 s) + Σ p (uq s) + Σ (oone p) (ones s) + Σ (h_p p) (hols s) + msum (g_p p) s + Σ (e_p p) (log s).

Lemma cells_shut (p : umsg → nat) s : Σ (ccell p) (cells1 (exec_rx_shutdown s)) ≤ Σ (ccell p) (cells1 s).
Proof.
  unfold exec_rx_shutdown. cbv zeta. autorewrite with fr_cells1. repeat (progress (prj; autorewrite with fr_cells1)).
  match goal with |- Σ _ (cells1 (fold_left close_handle1 ?l ?x)) ≤ _ => assert (cells1 s = cells1 x) as -> by (repeat (progress (prj; autorewrite with fr_cells1)); done); generalize l x end.
  intros l. induction l as [|k l IH]; intros x; simpl; [done|]. etrans; [apply IH|].
  unfold close_handle1. destruct (cells1 x !! k) as [[[] [w m| |]]|] eqn:E; try done.
  autorewrite with fr_cells1. pose proof (sum_insert (ccell p) _ _ _ (WC true WClosed) E). cbn in *. lia.
Qed.
Lemma exec_V p s t u rest s1 new : reach s → V p s = 0 → thr s !! t = Some (u :: rest) → exec u s = (s1, new) → thr s1 = thr s →
  V p (set_thr (<[t := new ++ rest]> (thr s1)) s1) = 0.
Proof.
  intros Hr I Ht E Hthr. unfold V in *.
  pose proof (msum_step (g_p p) s t u rest new s1 Ht Hthr) as HM.
  pose proof (msum_head (g_p p) s t u rest Ht) as HH.
  revert HM. generalize (msum (g_p p) (set_thr (<[t:=new ++ rest]> (thr s1)) s1)). intros n HM.
  prj. clear Hthr.
  do_exec u E HM ltac:(autorewrite with fr_sfs fr_cells1 fr_uq fr_ones fr_hols fr_log).
  all: repeat (progress (prj; autorewrite with fr_log fr_uq)); effects p.
  all: try (fin; done).
  pose proof (cells_shut p s). rewrite rx_shutdown_uq, rx_shutdown_log0 by done. cbn. lia.
Qed.
Lemma api_V p s o : (∀ a, o ≠ ASend a) → (∀ f n x m k, o = APriority f n → sfs s !! f = Some x → sf_st x ≠ SNew (PU m) k) → V p s = 0 → V p (api o s) = 0.
Proof.
  intros H1 H2 I. unfold V in *.
  do_api o ltac:(autorewrite with fr_sfs fr_cells1 fr_uq fr_ones fr_hols fr_log).
  all: try (exfalso; by eapply H1). all: try (exfalso; by eapply H2; [done|eassumption|done]).
  pose proof (sum_lookup (h_p p) _ _ _ Em) as HL. change (p m ≤ Σ (h_p p) (hols s)) in HL.
  rewrite !Nat.eq_add_0 in *. destruct I as ((((((I1 & I2) & I3) & I4) & I5) & I6) & I7). repeat split; first [assumption|lia].
Qed.
Lemma free_V p s : V p s = 0 → V p (free_chan s) = 0.
Proof.
  unfold V. intros I. rewrite (msum_eq _ s) by (autorewrite with fr_thr; done). autorewrite with fr_sfs fr_hols.
  rewrite free_uq, free_ones, !free_log0 by (intros; cbn; lia).
  assert (Σ (ccell p) (cells1 (free_chan s)) ≤ Σ (ccell p) (cells1 s)); [|change (Σ p []) with 0; lia].
  unfold free_chan. cbv zeta. repeat (progress (prj; autorewrite with fr_cells1)).
  match goal with |- Σ _ (cells1 (fold_left close_handle1 ?l ?x)) ≤ _ => assert (cells1 s = cells1 x) as -> by (repeat (progress (prj; autorewrite with fr_cells1)); done); generalize l x end.
  intros l. induction l as [|k l IH]; intros x; simpl; [done|]. etrans; [apply IH|].
  unfold close_handle1. destruct (cells1 x !! k) as [[[] [w m| |]]|] eqn:E; try done.
  autorewrite with fr_cells1. pose proof (sum_insert (ccell p) _ _ _ (WC true WClosed) E). cbn in *. lia.
Qed.

Lemma V_le p q s : (∀ m, p m ≤ q m) → V p s ≤ V q s.
Proof.
  intros H. unfold V.
  assert (Σ (f_p p) (sfs s) ≤ Σ (f_p q) (sfs s)). { apply sum_le. intros x. unfold f_p. repeat case_match; auto. }
  assert (Σ (ccell p) (cells1 s) ≤ Σ (ccell q) (cells1 s)). { apply sum_le. intros x. unfold ccell. repeat case_match; auto. }
  assert (Σ p (uq s) ≤ Σ q (uq s)) by (by apply sum_le).
  assert (Σ (oone p) (ones s) ≤ Σ (oone q) (ones s)). { apply sum_le. intros x. unfold oone. repeat case_match; auto. }
  assert (Σ (h_p p) (hols s) ≤ Σ (h_p q) (hols s)). { apply sum_le. intros x. unfold h_p. repeat case_match; auto. }
  assert (msum (g_p p) s ≤ msum (g_p q) s). { apply msum_le. intros x. unfold g_p. repeat case_match; auto. }
  assert (Σ (e_p p) (log s) ≤ Σ (e_p q) (log s)). { apply sum_le. intros x. unfold e_p. repeat case_match; auto. }
  lia.
Qed.
Lemma msum_add g h s : msum (λ u, g u + h u) s = msum g s + msum h s.
Proof. unfold msum. rewrite <-sum_add. apply sum_ext. intros l _. apply sum_add. Qed.
Lemma V_rest i s : reach s → Σ (f_p (is i)) (sfs s) = lt1 i (length (reps s)) → V (is i) s = lt1 i (length (reps s)).
Proof.
  intros Hr Hf. pose proof (reach_A s Hr i) as A. pose proof (reach_B s Hr i) as B. pose proof (reach_C s Hr i) as C. pose proof (reach_D s Hr i) as D.
  change (f_pre i) with (f_p (is i)) in A.
  assert (Σ (e_acc i) (log s) ≤ Σ (e_pre i) (log s)). { apply sum_le. intros []; cbn; lia. }
  assert (Σ (e_recv i) (log s) ≤ Σ (e_mid i) (log s)). { apply sum_le. intros []; cbn; try lia. }
  assert (Σ (e_handle i) (log s) ≤ Σ (e_msg i) (log s)). { apply sum_le. intros []; cbn; try lia. }
  assert (Σ (h_p (is i)) (hols s) ≤ Σ (h_msg i) (hols s) + Σ (h_runs i) (hols s)).
  { rewrite <- sum_add. apply sum_le. intros x. unfold h_p, h_msg, h_runs. repeat case_match; lia. }
  assert (Σ (e_p (is i)) (log s) ≤ Σ (e_recv i) (log s) + Σ (e_handle i) (log s)).
  { rewrite <- sum_add. apply sum_le. intros x. unfold e_p, e_recv, e_handle. repeat case_match; lia. }
  assert (msum (g_p (is i)) s ≤ msum (g_pre i) s + msum (g_mid i) s + msum (g_msg i) s + msum (g_run i) s).
  { rewrite <- !msum_add. apply msum_le. intros x. unfold g_p, g_pre, g_mid, g_msg, g_run. destruct x; try lia; try (destruct p; lia). destruct y; cbn; lia. }
  unfold V. lia.
Qed.

Fixpoint lastp (i : nat) (l : list ev) : option N :=
  match l with
  | [] => None
  | EvPrio m n :: l => if m =? i then Some n else lastp i l
  | _ :: l => lastp i l
  end.
Definition bad (i : nat) (v : N) (m : umsg) : nat := if N.eqb (um_val m) v then 0 else is i m.
Definition InvV (s : state) : Prop := ∀ i v, lastp i (log s) = Some v → V (bad i v) s = 0.
Lemma lastp_app i k l : (∀ m n, EvPrio m n ∉ k) → lastp i (k ++ l) = lastp i l.
Proof.
  induction k as [|e k IH]; intros H; [done|]. cbn. destruct e; try (apply IH; intros m' n' H'; eapply H; by right). exfalso. eapply H. by left.
Qed.
Lemma bad_le i v m : bad i v m ≤ is i m.
Proof. unfold bad. case_match; lia. Qed.
Lemma lastp_api i o s : (∀ a, o ≠ ASend a) → (∀ f n, o ≠ APriority f n) → lastp i (log (api o s)) = lastp i (log s).
Proof.
  intros H1 H2. destruct (api_evs o s) as [-> |(e & -> & He)]; [done|].
  destruct e; try done. cbn in He. destruct He as [[a ->]|(f & k & ->)]; [by destruct (H1 a)|by destruct (H2 f k)].
Qed.
Lemma reach_V s : reach s → InvV s.
Proof.
  revert s. apply reach_inv; unfold InvV.
  - intros c i v. done.
  - intros s o Hr I i v.
    assert (lastp i (log (api o s)) = lastp i (log s) → (∀ a, o ≠ ASend a) → (∀ f n x m k, o = APriority f n → sfs s !! f = Some x → sf_st x ≠ SNew (PU m) k) →
      lastp i (log (api o s)) = Some v → V (bad i v) (api o s) = 0) as HE.
    { intros E H1 H2 H3. apply api_V; [done..|]. apply I. by rewrite <- E. }
    destruct o as [| | | | | | |a| |f n| | | | | | | | | | | | | | | | | |];
      try (apply HE; [by apply lastp_api|done|done]).
    + clear HE. cbn [api]. destruct (addrs s !! a) as [[k ? []]|]; [|apply I..]. set (m := length (reps s)).
      assert (∀ p, V p (emit (EvPrio m 0) (set_sfs (sfs s ++ [SF (SNew (PU (UM m 0)) k) (MReturn m) true 0]) (set_reps (reps s ++ [RP true (REmpty None)]) (if k then set_txc (S (txc s)) s else s)))) = V p s + p (UM m 0)) as HV.
      { intros p. unfold V. prj. destruct k; prj; rewrite (msum_eq _ s) by done; rewrite sum_snoc; cbn; lia. }
      cbv zeta. rewrite HV. assert (log (if k then set_txc (S (txc s)) s else s) = log s) as EL by (by destruct k). prj. rewrite EL. cbn [lastp].
      destruct (Nat.eqb_spec m i) as [<-|Hm].
      * intros [= <-]. assert (V (is m) s = 0) as H0.
        { assert (lt1 m (length (reps s)) = 0) as El by (unfold lt1; by rewrite (proj2 (Nat.ltb_ge m (length (reps s))) (Nat.le_refl _))).
          rewrite <- El. apply V_rest; [done|]. pose proof (reach_A s Hr m) as A. change (f_pre m) with (f_p (is m)) in A. lia. }
        pose proof (V_le (bad m 0) (is m) s (bad_le m 0)). unfold bad at 2. cbn. lia.
      * intros Hl. rewrite (I _ _ Hl). unfold bad, is, isn. cbn. rewrite (proj2 (Nat.eqb_neq m i) Hm). by repeat case_match.
    + destruct (sfs s !! f) as [[st md lv w]|] eqn:Ef; [|cbn [api]; rewrite Ef; apply I].
      destruct lv; [|cbn [api]; rewrite Ef; destruct st as [[]| | | |]; apply I].
      destruct st as [[m|b] k|c| | |].
      * cbn [api]. rewrite Ef. prj. cbn [lastp].
        set (x := SF (SNew (PU (UM (um_id m) n)) k) md true w).
        assert (∀ p, V p (emit (EvPrio (um_id m) n) (put_sf f x s)) + p m = V p s + p (UM (um_id m) n)) as HV.
        { intros p. unfold V. prj. rewrite (msum_eq _ s) by done. pose proof (sum_insert (f_p p) _ _ _ x Ef). cbn in *. lia. }
        destruct (Nat.eqb_spec (um_id m) i) as [<-|Hm].
        -- intros [= <-]. pose proof (HV (bad (um_id m) n)) as H1. assert (bad (um_id m) n (UM (um_id m) n) = 0) as E0 by (unfold bad; cbn; by rewrite N.eqb_refl).
           rewrite E0 in H1. clear E0 HV.
           enough (V (bad (um_id m) n) s ≤ bad (um_id m) n m) by lia. clear H1 x.
           assert (is (um_id m) m = 1) as E1 by (unfold is, isn; by rewrite Nat.eqb_refl).
           pose proof (sum_lookup (f_p (is (um_id m))) _ _ _ Ef) as HL. cbn in HL. rewrite E1 in HL.
           pose proof (reach_A s Hr (um_id m)) as A. change (f_pre (um_id m)) with (f_p (is (um_id m))) in A.
           assert (lt1 (um_id m) (length (reps s)) ≤ 1) as Hle by (unfold lt1; case_match; lia).
           assert (V (is (um_id m)) s = 1) as HV. { rewrite V_rest; [lia|done|lia]. }
           pose (y := set_sfs (<[f := SF SDone md true w]> (sfs s)) s).
           assert (∀ p, V p y + p m = V p s) as HY.
           { intros p. unfold V, y. prj. rewrite (msum_eq _ s) by done. pose proof (sum_insert (f_p p) _ _ _ (SF SDone md true w) Ef). cbn in *. lia. }
           pose proof (HY (is (um_id m))). pose proof (HY (bad (um_id m) n)). pose proof (V_le (bad (um_id m) n) (is (um_id m)) y (bad_le _ _)). lia.
        -- intros Hl. pose proof (HV (bad i v)) as H1. rewrite (I _ _ Hl) in H1.
           assert (bad i v (UM (um_id m) n) = 0) as E0; [|lia]. unfold bad, is, isn. cbn. rewrite (proj2 (Nat.eqb_neq (um_id m) i) Hm). by repeat case_match.
      * apply HE; [cbn [api]; by rewrite Ef|done|]. intros ? ? ? ? ? [= <- <-] Hx. rewrite Ef in Hx. injection Hx as <-. done.
      * apply HE; [cbn [api]; rewrite Ef; destruct (sf_drop _); [|done]; prj; by autorewrite with fr_log|done|]. intros ? ? ? ? ? [= <- <-] Hx. rewrite Ef in Hx. injection Hx as <-. done.
      * apply HE; [cbn [api]; rewrite Ef; destruct (sf_drop _); [|done]; prj; by autorewrite with fr_log|done|]. intros ? ? ? ? ? [= <- <-] Hx. rewrite Ef in Hx. injection Hx as <-. done.
      * apply HE; [cbn [api]; rewrite Ef; destruct (sf_drop _); [|done]; prj; by autorewrite with fr_log|done|]. intros ? ? ? ? ? [= <- <-] Hx. rewrite Ef in Hx. injection Hx as <-. done.
      * apply HE; [cbn [api]; rewrite Ef; destruct (sf_drop _); [|done]; prj; by autorewrite with fr_log|done|]. intros ? ? ? ? ? [= <- <-] Hx. rewrite Ef in Hx. injection Hx as <-. done.
  - intros s t u rest s1 new Hr I Ht E Hthr i v. prj. destruct (exec_evs u s s1 new E) as (k & EL & Hk). rewrite EL, lastp_app.
    + intros Hl. eapply exec_V; eauto.
    + intros m n Hm. by apply Hk in Hm.
  - intros s Hr I Ho i v. destruct (free_evs s) as (k & EL & Hk). rewrite EL, lastp_app; [intros Hl; apply free_V, I, Hl|].
    intros m n Hm. apply Hk in Hm as (? & ? & ? & _). done.
Qed.
