(** Proofs of the properties about capacity and admission. *)
From stdpp Require Import base numbers list list_numbers sorting.
From Coq Require Import Lia.
From Verif Require Import Prio Heap State Model HeapProofs Frame Lib InvBusy InvCount Effects InvMsg InvMsg2
  InvHeap InvOne InvOne2 InvDisc InvWait InvWait2 InvFut InvCell WaitSpec InvWs InvBlk Mono InvSend InvErr Spec Bridge FinalB FinalC.

(** ** Admission *)
Lemma admitted_max s t r m : reach s → next_action s t (UTryRecv r) →
  newly s (step s (Step t)) (EvAccept m) →
  ∃ k, um_id k = m ∧ blocked_msg s k ∧ ∀ k', blocked_msg s k' → ple (um_prio k') (um_prio k).
Proof.
  intros Hr Hn (k & Hk & Hin). destruct Hn as [rest Ht].
  destruct (busyR_at s t _ rest r Hr Ht) as (h & Hh & Hb); [cbn; by rewrite Nat.eqb_refl|].
  destruct (try_recv_step s t r h Hr ltac:(by exists rest) Hh) as (rest' & s1 & new & E & Es).
  assert (log (step s (Step t)) = log s1) as Hl by (by rewrite Es). unfold between in Hk. rewrite Hl in Hk. clear Es Hl.
  pose proof (try_recv_cases s s1 new r h Hr Hh E) as HC.
  destruct HC as [(m0 & hp & l & Hp & _ & _ & Hlog & Hl & _ & _ & _ & _ & s' & Ep & ->)|
    [(m0 & hp & l & Hp & _ & _ & Hlog & Hl & _)|[(H1 & H2 & H3 & _ & _ & Hlog & _)|(_ & _ & _ & _ & _ & Hlog & _)]]].
  2: { exfalso. rewrite Hlog, app_comm_cons in Hk. apply app_inv_tail in Hk as <-. apply elem_of_cons in Hin as [?|Hin]; [done|].
       rewrite Forall_forall in Hl. apply Hl in Hin as (? & ? & ?). done. }
  2: { exfalso. rewrite Hlog in Hk. change (EvRecv r Shut :: log s) with ([EvRecv r Shut] ++ log s) in Hk. apply app_inv_tail in Hk as <-.
    by apply elem_of_list_singleton in Hin. }
  2: { exfalso. rewrite Hlog in Hk. symmetry in Hk. apply app_cons_inj in Hk as ->. by apply elem_of_nil in Hin. }
  destruct (reach_ws s Hr) as (W & _).
  destruct (pop_unicast_cases _ _ _ W Ep) as [_ [(? & _ & _)|(m' & h' & Hp' & Hm' & H)]].
  { done. }
  rewrite Hp in Hp'. injection Hp' as <- <-. clear Hm'. unfold deliver in Hlog. cbn in Hlog. autorewrite with fr_log in Hlog.
  injection Hlog as Hlog. unfold deliver in Hk. cbn in Hk. autorewrite with fr_log in Hk.
  destruct H as [(Q1 & Q2 & Q3 & _)|(c & m2 & w & _ & Hc & _ & _ & Q3 & _ & i & Hi & _ & Hmax)].
  { exfalso. rewrite Q3 in Hk. change (EvRecv r (ToOne m0) :: log s) with ([EvRecv r (ToOne m0)] ++ log s) in Hk.
    apply app_inv_tail in Hk as <-. by apply elem_of_list_singleton in Hin. }
  rewrite Q3 in Hk. change (EvRecv r (ToOne m0) :: EvAccept (um_id m2) :: log s) with ([EvRecv r (ToOne m0); EvAccept (um_id m2)] ++ log s) in Hk.
  apply app_inv_tail in Hk as <-. apply elem_of_cons in Hin as [?|Hin]; [done|]. apply elem_of_list_singleton in Hin as [= ->].
  exists m2. split; [done|]. split; [by exists c, w|].
  intros k' (c' & w' & Hc'). destruct (W c') as [_ W2]. rewrite (at_some _ _ _ _ Hc') in W2. cbn in W2.
  assert (c' ∈ List.filter (cell_active (cells1 s)) (ws1 s)) as Hf.
  { apply elem_of_list_In, filter_In. split; [apply elem_of_list_In, sum_isn_elem; lia|]. unfold cell_active. by rewrite Hc'. }
  apply elem_of_list_lookup in Hf as [j Hj].
  destruct (Hmax j (Some (um_prio k'))) as [Hm _].
  { rewrite list_lookup_fmap, Hj. cbn. unfold cell_prio. by rewrite Hc'. }
  apply ple_leb. unfold prio_leb. cbn [oprio_cmp] in Hm. by destruct (prio_cmp _ _).
Qed.

(** ** The backpressure decision *)
Lemma fulfill_spec ws m s : 
  (snd (fulfill ws m s) = true ↔ ∃ o w, o ∈ ws ∧ ones s !! o = Some (ON true (OEmpty w))) ∧
  (snd (fulfill ws m s) = false → ones (fst (fulfill ws m s)) = ones s).
Proof.
  revert s; induction ws as [|o ws IH]; intros s; cbn [fulfill].
  { split; [|done]. split; [done|]. intros (o & w & []%elem_of_nil & _). }
  unfold one_send. destruct (ones s !! o) as [[[] [w| | |]]|] eqn:Eo; cbn [fst snd].
  1: { split; [|done]. split; [|done]. intros _. exists o, w. split; [by left|done]. }
  all: destruct (IH s) as [IH1 IH2]; split; [|done]; rewrite IH1; split.
  all: try (intros (o' & w' & H1 & H2); exists o', w'; split; [by right|done]).
  all: intros (o' & w' & [->|H1]%elem_of_cons & H2); [congruence|eauto].
Qed.

(** The lock-protected part of a unicast send. *)
Lemma send_decision s t f m k : reach s → next_action s t (USendLock f (PU m) k) →
  (receiver_ready s → between s (step s (Step t)) [EvAccept (um_id m)] ∧ uq (step s (Step t)) = uq s) ∧
  (¬ receiver_ready s → at_capacity s (length (uq s)) →
     between s (step s (Step t)) [EvBlocked (um_id m)] ∧ blocked_msg (step s (Step t)) m ∧ uq (step s (Step t)) = uq s) ∧
  (¬ receiver_ready s → ¬ at_capacity s (length (uq s)) →
     between s (step s (Step t)) [EvAccept (um_id m)] ∧ uq (step s (Step t)) ≡ₚ m :: uq s).
Proof.
  intros Hr [rest Ht]. unfold step, do_step. rewrite Ht. cbn [exec]. unfold exec_send_lock.
  destruct (try_fulfill_receiver m s) as [s1 b] eqn:Ef.
  pose proof (f_equal (λ p, log (fst p)) Ef) as E1. pose proof (f_equal (λ p, uq (fst p)) Ef) as E2.
  pose proof (f_equal (λ p, cap (fst p)) Ef) as E3. pose proof (f_equal (λ p, thr (fst p)) Ef) as E4.
  pose proof (f_equal (λ p, cells1 (fst p)) Ef) as E5. cbn in E1, E2, E3, E4, E5.
  autorewrite with fr_log fr_uq fr_cap fr_thr fr_cells1 in *.
  destruct (fulfill_spec (wrx s) m s) as [F1 F2]. unfold try_fulfill_receiver in Ef. rewrite Ef in F1, F2. cbn in F1, F2.
  assert (t < length (thr s)) as Hlt by (by eapply lookup_lt_Some).
  assert (∀ x q, x ≠ [] → chan_owned (set_thr (<[t := x ++ rest]> (thr s)) q) = true) as Hown.
  { intros x q Hx. unfold chan_owned. cbn. rewrite !orb_true_iff. right. apply existsb_exists. exists (x ++ rest).
    split; [|by destruct x]. apply elem_of_list_In. apply elem_of_list_lookup. exists t. by apply list_lookup_insert. }
  assert (∀ y : micro, tx_drop k ++ [y] ≠ []) as Hne by (intros; by destruct k).
  destruct b.
  { assert (receiver_ready s) by (by apply F1). split_and!; try done. intros _.
    unfold collect. prj. rewrite <-E4, Hown by done. unfold between. prj. by rewrite <-E1, <-E2. }
  assert (¬ receiver_ready s) by (intros ?; assert (false = true) by (by apply F1); done).
  destruct (unicast_full s1) eqn:Eful.
  - assert (at_capacity s (length (uq s))) as Hcap.
    { unfold unicast_full in Eful. rewrite <-E2, <-E3 in Eful. destruct (cap s) as [n|] eqn:En; [|done]. exists n. split; [done|]. by apply Nat.leb_le. }
    split_and!; try done. intros _ _. unfold collect. prj. rewrite <-E4, Hown by done. unfold between. prj. rewrite <-E1, <-E2.
    split_and!; try done. exists (length (cells1 s)), None. prj. rewrite <-E5. rewrite lookup_app_r, Nat.sub_diag by lia. done.
  - assert (¬ at_capacity s (length (uq s))) as Hcap.
    { unfold unicast_full in Eful. rewrite <-E2, <-E3 in Eful. intros (n & En & Hn). rewrite En in Eful. apply Nat.leb_le in Hn. congruence. }
    split_and!; try done. intros _ _. unfold collect. prj. autorewrite with fr_thr. rewrite <-E4, Hown by done. unfold between. prj. autorewrite with fr_log. rewrite <-E1.
    split; [done|]. unfold push_unicast. prj. rewrite <-E2. apply heap_push_perm.
Qed.

(** The lock-protected part of a broadcast. *)
Lemma bcast_decision s t f x k : reach s → next_action s t (USendLock f (PB x) k) →
  (at_capacity s (tail s) → between s (step s (Step t)) [] ∧ blocked_bcast (step s (Step t)) x ∧
     bqueues (step s (Step t)) = bqueues s) ∧
  (¬ at_capacity s (tail s) → ∃ qs, between s (step s (Step t)) [EvBcast x qs] ∧
     (∀ q, q ∈ qs ↔ q ∈ bqs s ∧ ∃ b, bqueues s !! q = Some b ∧ 0 < bq_refs b) ∧
     cellsA (step s (Step t)) = cellsA s).
Proof.
  intros Hr [rest Ht]. unfold step, do_step. rewrite Ht. cbn [exec]. unfold exec_send_lock.
  assert (t < length (thr s)) as Hlt by (by eapply lookup_lt_Some).
  assert (∀ x q, x ≠ [] → chan_owned (set_thr (<[t := x ++ rest]> (thr s)) q) = true) as Hown.
  { intros z q Hx. unfold chan_owned. cbn. rewrite !orb_true_iff. right. apply existsb_exists. exists (z ++ rest).
    split; [|by destruct z]. apply elem_of_list_In. apply elem_of_list_lookup. exists t. by apply list_lookup_insert. }
  assert (∀ y : micro, tx_drop k ++ [y] ≠ []) as Hne by (intros; by destruct k).
  destruct (broadcast_full s) eqn:Eful.
  - assert (at_capacity s (tail s)) as Hcap.
    { unfold broadcast_full in Eful. destruct (cap s) as [n|] eqn:En; [|done]. exists n. split; [done|]. by apply Nat.leb_le. }
    split; [intros _|done]. unfold collect. prj. rewrite Hown by done. unfold between. prj.
    split_and!; try done. exists (length (cellsA s)), None. prj. rewrite lookup_app_r, Nat.sub_diag by lia. done.
  - assert (¬ at_capacity s (tail s)) as Hcap.
    { unfold broadcast_full in Eful. intros (n & En & Hn). rewrite En in Eful. apply Nat.leb_le in Hn. congruence. }
    split; [done|intros _]. exists (List.filter (bq_live s) (bqs s)).
    unfold collect. prj. autorewrite with fr_thr. rewrite Hown by done. unfold between. prj. autorewrite with fr_cellsA. split_and!; [|..|done].
    + unfold send_broadcast. cbv zeta. repeat (progress (prj; autorewrite with fr_log)). done.
    + intros q. rewrite elem_of_list_In, filter_In, <-elem_of_list_In. unfold bq_live.
      split; intros [H1 H2]; (split; [done|]).
      * destruct (bqueues s !! q) as [b|]; [|done]. apply Nat.ltb_lt in H2. eauto.
      * destruct H2 as (b & -> & Hb). by apply Nat.ltb_lt.
Qed.

(** ** Capacity *)
Definition g_cq (u : micro) : nat := match u with UCancel _ | URequeue _ => 1 | _ => 0 end.
Definition o_dh (o : op) : nat := match o with ADropHol _ => 1 | _ => 0 end.
Definition ICap (d : nat) (s : state) : Prop :=
  ∀ n, cap s = Some n → length (uq s) + msum g_cq s ≤ n + d ∧ msum g_cq s ≤ d.
Lemma api_cap o s : cap (api o s) = cap s.
Proof.
  destruct o; cbn [api]; repeat (dgoal; try done); cbv zeta; unfold add_addr; repeat dgoal; by repeat (progress (prj; autorewrite with fr_cap)).
Qed.
Lemma exec_cap u s s1 new : exec u s = (s1, new) → cap s1 = cap s.
Proof. intros E. exec_cases u E; by repeat (progress (prj; autorewrite with fr_cap)). Qed.
Lemma step_cap s o : cap (step s o) = cap s.
Proof.
  assert (∀ x, cap (collect x) = cap x) as Hc.
  { intros x. unfold collect. destruct (chan_owned x); [done|]. by autorewrite with fr_cap. }
  unfold step. rewrite Hc. pose proof (api_cap o s) as Ha. destruct o; try exact Ha.
  unfold do_step. destruct (thr s !! t) as [[|u rest]|] eqn:Ht; try done.
  destruct (exec u s) as [s1 new] eqn:E. cbn. by eapply exec_cap.
Qed.
Lemma icap_api d o s : ICap d s → ICap (d + o_dh o) (api o s).
Proof.
  intros I n. specialize (I n).
  rewrite api_cap.
  assert (uq (api o s) = uq s) as ->.
  { destruct o; cbn [api]; repeat (dgoal; try done); cbv zeta; unfold add_addr; repeat dgoal; by repeat (progress (prj; autorewrite with fr_uq)). }
  assert (msum g_cq (api o s) ≤ msum g_cq s + o_dh o); [|intros Hn; specialize (I Hn); lia].
  do_api o ltac:(idtac).
Qed.
Lemma exec_uq_len u s s1 new : reach s → exec u s = (s1, new) →
  length (uq s1) + Σ g_cq new ≤ length (uq s) + g_cq u ∨
  (Σ g_cq new ≤ g_cq u ∧ ∀ n, cap s = Some n → length (uq s1) ≤ n).
Proof.
  intros Hr E.
  assert (length (uq (fst (pop_unicast s))) ≤ length (uq s)) as HP.
  { destruct (pop_unicast s) as [x r] eqn:Ex. destruct (reach_ws s Hr) as (W & _).
    destruct (pop_unicast_cases _ _ _ W Ex) as [_ [(? & -> & _)|(m' & h' & Hp' & _ & H)]]; [done|]. cbn.
    apply length_pop in Hp'.
    destruct H as [(-> & _)|(c & m2 & w & Hf & _ & _ & -> & _)]; rewrite ?length_push; lia. }
  exec_cases u E; rewrite ?sum_list_with_app; try (rewrite sum_notify by done);
    unfold rx_drop, payload_drop, amsg_drop, tx_drop in *; repeat (progress (prj; autorewrite with fr_uq)); cbn -[Nat.eqb]; try (left; lia).
  all: repeat match goal with |- context [Σ _ (match ?x with _ => _ end)] => destruct x end; cbn -[Nat.eqb]; try (left; lia).
  all: try (rewrite rx_shutdown_uq; cbn; left; lia).
  all: try (unfold push_unicast; prj; rewrite ?length_push; autorewrite with fr_uq; left; lia).
  all: try match goal with H : unicast_full (fst (try_fulfill_receiver _ _)) = false |- _ =>
    right; split; [lia|]; intros n Hn; unfold unicast_full in H; autorewrite with fr_cap fr_uq in H; rewrite Hn in H;
    apply Nat.leb_gt in H; rewrite length_push; lia end.
  all: try (rewrite length_push; left; lia).
  all: cbn in HP; left; lia.
Qed.
Lemma icap_step d o s : reach s → ICap d s → ICap (d + o_dh o) (step s o).
Proof.
  intros Hr I. unfold step.
  assert (∀ e x, ICap e x → ICap e (collect x)) as Hc.
  { intros e x Ix n. unfold collect. destruct (chan_owned x); [apply Ix|].
    rewrite (msum_eq g_cq x (free_chan x)) by (by autorewrite with fr_thr). rewrite free_uq. autorewrite with fr_cap.
    intros Hn. specialize (Ix n Hn). cbn. lia. }
  apply Hc. destruct o; try (by apply icap_api). cbn [o_dh]. rewrite Nat.add_0_r.
  unfold do_step. destruct (thr s !! t) as [[|u rest]|] eqn:Ht; try done.
  destruct (exec u s) as [s1 new] eqn:E. intros n Hn. pose proof (exec_thr u s) as Hthr. rewrite E in Hthr. cbn in Hthr.
  pose proof (msum_step g_cq s t u rest new s1 Ht Hthr) as HM.
  pose proof (msum_head g_cq s t u rest Ht) as HH. revert HM Hn.
  generalize (msum g_cq (set_thr (<[t:=new ++ rest]> (thr s1)) s1)). intros k HM. prj. intros Hn.
  pose proof (exec_cap _ _ _ _ E) as Hcap.
  rewrite Hcap in Hn. destruct (I n Hn) as [I1 I2].
  assert (Σ g_cq new ≤ g_cq u) as Hle.
  { clear -E. exec_cases u E; rewrite ?sum_list_with_app; try (rewrite sum_notify by done); unfold rx_drop, payload_drop, amsg_drop, tx_drop; repeat case_match; cbn; lia. }
  destruct (exec_uq_len u s s1 new Hr E) as [H|[_ H]]; [lia|]. specialize (H n Hn). lia.
Qed.
Lemma cap_bound n ops : length (uq (run (init (Some n)) ops)) ≤ n + Σ o_dh ops.
Proof.
  assert (ICap (Σ o_dh ops) (run (init (Some n)) ops) ∧ reach (run (init (Some n)) ops) ∧ cap (run (init (Some n)) ops) = Some n) as (I & _ & Hc).
  2: { destruct (I n Hc). lia. }
  induction ops as [|o ops IH] using rev_ind.
  { split_and!; [|apply reach_init|done]. intros k. cbn. lia. }
  rewrite run_snoc, sum_snoc. destruct IH as (I1 & I2 & I3). split_and!.
  - by apply icap_step.
  - by apply reach_one.
  - by rewrite step_cap.
Qed.
