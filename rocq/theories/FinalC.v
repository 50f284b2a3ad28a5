(** Proofs of the properties about the order of messages. *)
From stdpp Require Import base numbers list list_numbers sorting.
From Coq Require Import Lia.
From Verif Require Import Prio Heap State Model HeapProofs Frame Lib InvBusy InvCount Effects InvMsg InvMsg2
  InvHeap InvOne InvOne2 InvDisc InvWait InvWait2 InvFut InvCell WaitSpec InvWs InvBlk Mono InvSend InvErr Spec Bridge FinalB.

Lemma ple_leb a b : ple a b ↔ prio_leb a b = true.
Proof.
  destruct a as [m|], b as [n|]; cbn; unfold prio_leb; cbn; try done. case_match eqn:E.
  - apply N.compare_eq in E as ->. split; [done|]. intros _. lia.
  - rewrite N.compare_lt_iff in E. split; [done|]. intros _. lia.
  - rewrite N.compare_gt_iff in E. split; [lia|done].
Qed.
Lemma ple_trans a b c : ple a b → ple b c → ple a c.
Proof. rewrite !ple_leb. apply prio_leb_trans. Qed.
Lemma ple_total a b : ¬ ple a b → ple b a.
Proof. rewrite !ple_leb. intros H. apply prio_leb_total. by destruct (prio_leb a b). Qed.
Lemma oprio_some_lt a b : oprio_cmp (Some a) (Some b) = Lt → plt a b.
Proof.
  intros H. split; rewrite ple_leb; unfold prio_leb; cbn in H.
  - by rewrite H.
  - intros Hb. destruct a as [m|], b as [n|]; cbn in *; try done. rewrite N.compare_antisym, H in Hb. done.
Qed.
Lemma oprio_some_ge a b : oprio_cmp (Some a) (Some b) ≠ Lt → ple b a.
Proof.
  intros H. rewrite ple_leb. unfold prio_leb. cbn in H. destruct a as [m|], b as [n|]; cbn in *; try done.
  rewrite N.compare_antisym. by destruct (m ?= n)%N.
Qed.
Lemma plt_le_trans a b c : ple a b → plt b c → plt a c.
Proof. intros H [H1 H2]. split; [by eapply ple_trans|]. intros H3. apply H2. by eapply ple_trans. Qed.
Lemma plt_trans2 a b c : plt a b → ple b c → plt a c.
Proof. intros [H1 H2] H. split; [by eapply ple_trans|]. intros H3. apply H2. by eapply ple_trans. Qed.

Definition is_acc (e : ev) : Prop := ∃ m, e = EvAccept m.
Definition is_bc (e : ev) : Prop := ∃ b q, e = EvBcast b q.

Lemma pop_u s m hp : reach s → heap_pop um_prio (uq s) = Some (m, hp) →
  ∃ s' l, pop_unicast s = (s', Some m) ∧ log s' = l ++ log s ∧ Forall is_acc l ∧ (l = [] → uq s' = hp) ∧
    bqueues s' = bqueues s ∧ hols s' = hols s.
Proof.
  intros Hr Hp. destruct (pop_unicast s) as [s' x] eqn:E.
  pose proof (f_equal (λ p, bqueues (fst p)) E) as E1. pose proof (f_equal (λ p, hols (fst p)) E) as E2. cbn in E1, E2.
  autorewrite with fr_bqueues fr_hols in *.
  destruct (reach_ws s Hr) as (W & _).
  destruct (pop_unicast_cases _ _ _ W E) as [_ [(-> & -> & Hn)|(m' & h' & Hp' & -> & H)]].
  { by rewrite Hn in Hp. }
  rewrite Hp in Hp'. injection Hp' as <- <-. exists s'.
  destruct H as [(Q1 & Q2 & Q3 & _)|(c & m2 & w & _ & _ & _ & _ & Q3 & _)].
  - exists []. by rewrite Q3, Q1.
  - exists [EvAccept (um_id m2)]. split_and!; try done. constructor; [by eexists|done].
Qed.
Lemma pop_b s b m hp : heap_pop bm_prio (backlog s b) = Some (m, hp) →
  ∃ s' l, pop_broadcast b s = (s', Some m) ∧ log s' = l ++ log s ∧ Forall is_bc l ∧ (l = [] → backlog s' b = hp) ∧
    uq s' = uq s ∧ hols s' = hols s.
Proof.
  intros Hp. unfold pop_broadcast. change (bq_get s b) with (backlog s b). rewrite Hp.
  assert (backlog (bq_put b hp s) b = hp) as Hput.
  { unfold backlog, bq_put in *. destruct (bqueues s !! b) as [q|] eqn:Hb; [|done]. cbn.
    rewrite list_lookup_insert; [done|by eapply lookup_lt_Some]. }
  cbv zeta. case_match.
  { eexists _, []. split_and!; [done|..]; repeat (progress (prj; autorewrite with fr_log fr_uq fr_hols)); done. }
  unfold take_waitingA. destruct (try_take _ _ _ _) as [[cs ws] [[m2 w]|]] eqn:Et; cbn [fst snd].
  - eexists _, [EvBcast m2 _]. split_and!; [done|..].
    + unfold send_broadcast. cbv zeta. repeat (progress (prj; autorewrite with fr_log)). reflexivity.
    + constructor; [by do 2 eexists|done].
    + done.
    + by repeat (progress (prj; autorewrite with fr_uq)).
    + by repeat (progress (prj; autorewrite with fr_hols)).
  - eexists _, []. split_and!; [done|..]; repeat (progress (prj; autorewrite with fr_log fr_uq fr_hols)); done.
Qed.

(** Everything a fresh receive can do. *)
Lemma try_recv_cases s s1 new r h : reach s → hols s !! r = Some h → exec (UTryRecv r) s = (s1, new) →
  (∃ m hp l, heap_pop um_prio (uq s) = Some (m, hp) ∧ new = [] ∧
     hols s1 = <[r := HO (h_bq h) (HMsg (ToOne m)) (h_run h) (h_wk h)]> (hols s) ∧
     log s1 = EvRecv r (ToOne m) :: l ++ log s ∧ Forall is_acc l ∧ (l = [] → uq s1 = hp) ∧
     bqueues s1 = bqueues s ∧ (∀ y, y ∈ uq s → ple (um_prio y) (um_prio m)) ∧
     (∀ b, b ∈ backlog s (h_bq h) → ple (bm_prio b) (um_prio m)) ∧
     ∃ s', pop_unicast s = (s', Some m) ∧ s1 = deliver r (ToOne m) s') ∨
  (∃ m hp l, heap_pop bm_prio (backlog s (h_bq h)) = Some (m, hp) ∧ new = [] ∧
     hols s1 = <[r := HO (h_bq h) (HMsg (ToAll m)) (h_run h) (h_wk h)]> (hols s) ∧
     log s1 = EvRecv r (ToAll m) :: l ++ log s ∧ Forall is_bc l ∧ (l = [] → backlog s1 (h_bq h) = hp) ∧
     uq s1 = uq s ∧ (∀ y, y ∈ uq s → plt (um_prio y) (bm_prio m)) ∧
     (∀ b, b ∈ backlog s (h_bq h) → ple (bm_prio b) (bm_prio m)) ∧
     ∃ s', pop_broadcast (h_bq h) s = (s', Some m) ∧ s1 = deliver r (ToAll m) s') ∨
  (uq s = [] ∧ backlog s (h_bq h) = [] ∧ txc s = 0 ∧ new = [] ∧
     hols s1 = <[r := HO (h_bq h) (HMsg Shut) (h_run h) (h_wk h)]> (hols s) ∧
     log s1 = EvRecv r Shut :: log s ∧ uq s1 = uq s ∧ bqueues s1 = bqueues s) ∨
  (uq s = [] ∧ backlog s (h_bq h) = [] ∧ 0 < txc s ∧ new = [UPollOne r (length (ones s))] ∧
     hols s1 = hols s ∧ log s1 = log s ∧ uq s1 = uq s ∧ bqueues s1 = bqueues s).
Proof.
  intros Hr Hh E. destruct (reach_heap s Hr) as [HU HB]. apply (bq_get_ok s (h_bq h)) in HB.
  assert (∀ a x, hols x = hols s →
    hols (deliver r a x) = <[r := HO (h_bq h) (HMsg a) (h_run h) (h_wk h)]> (hols s)) as Hdel.
  { intros a x Hx. rewrite hols_deliver, Hx. apply list_eq. intros i. destruct (decide (i = r)) as [->|].
    - rewrite list_lookup_alter, Hh, list_lookup_insert; [done|by eapply lookup_lt_Some].
    - by rewrite list_lookup_alter_ne, list_lookup_insert_ne. }
  cbn [exec] in E. rewrite Hh in E. unfold exec_try_recv in E.
  change (bq_get s (h_bq h)) with (backlog s (h_bq h)) in *.
  assert (∀ m hp, heap_pop um_prio (uq s) = Some (m, hp) → ∀ y, y ∈ uq s → ple (um_prio y) (um_prio m)) as Hum.
  { intros m hp Hp y Hy. apply ple_leb. apply (heap_peek_max um_prio _ _ HU (heap_pop_peek _ _ _ _ Hp) y Hy). }
  assert (∀ m hp, heap_pop bm_prio (backlog s (h_bq h)) = Some (m, hp) → ∀ y, y ∈ backlog s (h_bq h) → ple (bm_prio y) (bm_prio m)) as Hbm.
  { intros m hp Hp y Hy. apply ple_leb. apply (heap_peek_max bm_prio _ _ HB (heap_pop_peek _ _ _ _ Hp) y Hy). }
  assert (∀ m hp, heap_pop um_prio (uq s) = Some (m, hp) → 
    (∀ b, b ∈ backlog s (h_bq h) → ple (bm_prio b) (um_prio m)) →
    match pop_unicast s with (s', Some m) => (deliver r (ToOne m) s', []) | (s', None) => panic_recv r (h_bq h) s' end = (s1, new) →
    (∃ m hp l, heap_pop um_prio (uq s) = Some (m, hp) ∧ new = [] ∧
     hols s1 = <[r := HO (h_bq h) (HMsg (ToOne m)) (h_run h) (h_wk h)]> (hols s) ∧
     log s1 = EvRecv r (ToOne m) :: l ++ log s ∧ Forall is_acc l ∧ (l = [] → uq s1 = hp) ∧
     bqueues s1 = bqueues s ∧ (∀ y, y ∈ uq s → ple (um_prio y) (um_prio m)) ∧
     (∀ b, b ∈ backlog s (h_bq h) → ple (bm_prio b) (um_prio m)) ∧
     ∃ s', pop_unicast s = (s', Some m) ∧ s1 = deliver r (ToOne m) s')) as HcaseU.
  { intros m hp Hp Hb. destruct (pop_u s m hp Hr Hp) as (s' & l & Hpp & H1 & H2 & H3 & H4 & H5).
    rewrite Hpp. intros [= <- <-]. exists m, hp, l. split_and!; try done; [by apply Hdel|..].
    - unfold deliver. prj. autorewrite with fr_log. by rewrite H1.
    - unfold deliver. repeat (progress (prj; autorewrite with fr_uq)). done.
    - unfold deliver. repeat (progress (prj; autorewrite with fr_bqueues)). done.
    - eauto.
    - eauto. }
  assert (∀ m hp, heap_pop bm_prio (backlog s (h_bq h)) = Some (m, hp) → 
    (∀ y, y ∈ uq s → plt (um_prio y) (bm_prio m)) →
    match pop_broadcast (h_bq h) s with (s', Some m) => (deliver r (ToAll m) s', []) | (s', None) => panic_recv r (h_bq h) s' end = (s1, new) →
    (∃ m hp l, heap_pop bm_prio (backlog s (h_bq h)) = Some (m, hp) ∧ new = [] ∧
     hols s1 = <[r := HO (h_bq h) (HMsg (ToAll m)) (h_run h) (h_wk h)]> (hols s) ∧
     log s1 = EvRecv r (ToAll m) :: l ++ log s ∧ Forall is_bc l ∧ (l = [] → backlog s1 (h_bq h) = hp) ∧
     uq s1 = uq s ∧ (∀ y, y ∈ uq s → plt (um_prio y) (bm_prio m)) ∧
     (∀ b, b ∈ backlog s (h_bq h) → ple (bm_prio b) (bm_prio m)) ∧
     ∃ s', pop_broadcast (h_bq h) s = (s', Some m) ∧ s1 = deliver r (ToAll m) s')) as HcaseB.
  { intros m hp Hp Hb. destruct (pop_b s (h_bq h) m hp Hp) as (s' & l & Hpp & H1 & H2 & H3 & H4 & H5).
    rewrite Hpp. intros [= <- <-]. exists m, hp, l. split_and!; try done; [by apply Hdel|..].
    - unfold deliver. prj. autorewrite with fr_log. by rewrite H1.
    - unfold deliver, backlog in *. repeat (progress (prj; autorewrite with fr_bqueues)). done.
    - unfold deliver. repeat (progress (prj; autorewrite with fr_uq)). done.
    - eauto.
    - eauto. }
  destruct (heap_peek (uq s)) as [mu|] eqn:Pu; destruct (heap_peek (backlog s (h_bq h))) as [mb|] eqn:Pb; cbn [option_map] in E.
  - destruct (heap_peek_pop um_prio _ _ Pu) as [hu Hu]. destruct (heap_peek_pop bm_prio _ _ Pb) as [hb Hb].
    destruct (oprio_cmp (Some (um_prio mu)) (Some (bm_prio mb))) eqn:Ec.
    + left. eapply HcaseU; [done| |done]. intros b Hi. eapply ple_trans; [by eapply Hbm|]. apply oprio_some_ge. by rewrite Ec.
    + right; left. eapply HcaseB; [done| |done]. intros y Hy. eapply plt_le_trans; [by eapply Hum|]. by apply oprio_some_lt.
    + left. eapply HcaseU; [done| |done]. intros b Hi. eapply ple_trans; [by eapply Hbm|]. apply oprio_some_ge. by rewrite Ec.
  - destruct (heap_peek_pop um_prio _ _ Pu) as [hu Hu]. destruct (backlog s (h_bq h)) eqn:Eb; [|done].
    left. eapply HcaseU; [done| |done]. intros b []%elem_of_nil.
  - destruct (heap_peek_pop bm_prio _ _ Pb) as [hb Hb]. destruct (uq s) eqn:Eu; [|done].
    right; left. eapply HcaseB; [done| |done]. intros b []%elem_of_nil.
  - destruct (backlog s (h_bq h)) eqn:Eb; [|done]. destruct (uq s) eqn:Eu; [|done]. cbn in E.
    right; right. destruct (Nat.eqb_spec (txc s) 0); [left|right]; injection E as <- <-.
    + split_and!; try done; [by apply Hdel|..]; unfold deliver; repeat (progress (prj; autorewrite with fr_uq fr_bqueues fr_log)); try done.
    + split_and!; try done. lia.
Qed.

Lemma owned_hol s r h : hols s !! r = Some h → h_st h ≠ HGone → chan_owned s = true.
Proof.
  intros Ha Hl. unfold chan_owned.
  assert (existsb (λ h, match h_st h with HGone => false | _ => true end) (hols s) = true) as ->; [|by rewrite orb_true_r].
  apply existsb_exists. exists h. split; [apply elem_of_list_In; by eapply elem_of_list_lookup_2|]. by destruct (h_st h).
Qed.

(** The step of a fresh receive. *)
Lemma try_recv_step s t r h : reach s → next_action s t (UTryRecv r) → hols s !! r = Some h →
  ∃ rest s1 new, exec (UTryRecv r) s = (s1, new) ∧ step s (Step t) = set_thr (<[t := new ++ rest]> (thr s1)) s1.
Proof.
  intros Hr [rest Ht] Hh. destruct (exec (UTryRecv r) s) as [s1 new] eqn:E. exists rest, s1, new. split; [done|].
  unfold step, do_step. rewrite Ht, E. unfold collect.
  assert (r < length (hols s)) as Hlt by (by eapply lookup_lt_Some).
  destruct (busyR_at s t _ rest r Hr Ht) as (h' & Hh' & Hb); [cbn; by rewrite Nat.eqb_refl|].
  assert (h' = h) as -> by congruence.
  assert (∃ h2, hols s1 !! r = Some h2 ∧ h_st h2 ≠ HGone) as (h2 & H1 & H2).
  { destruct (try_recv_cases s s1 new r h Hr Hh E) as [(m & hp & l & _ & _ & -> & _)|[(m & hp & l & _ & _ & -> & _)|[(_ & _ & _ & _ & -> & _)|(_ & _ & _ & _ & -> & _)]]].
    1-3: rewrite list_lookup_insert by done; eexists; split; [done|]; done.
    exists h. split; [done|]. by rewrite Hb. }
  by rewrite (owned_hol _ r h2).
Qed.

Lemma app_cons_inj {A} (k l : list A) : k ++ l = l → k = [].
Proof. intros H. apply (f_equal length) in H. rewrite app_length in H. destruct k; [done|cbn in H; lia]. Qed.
Lemma between_unique s s' k k' : between s s' k → between s s' k' → k = k'.
Proof. unfold between. intros -> H. by apply app_inv_tail in H. Qed.

Lemma recv_top s t r h a : reach s → next_action s t (UTryRecv r) → hols s !! r = Some h →
  newly s (step s (Step t)) (EvRecv r a) → may_take s (h_bq h) a.
Proof.
  intros Hr Hn Hh (k & Hk & Hin). destruct (try_recv_step s t r h Hr Hn Hh) as (rest & s1 & new & E & Es).
  assert (log (step s (Step t)) = log s1) as Hl by (by rewrite Es). unfold between in Hk. rewrite Hl in Hk. clear Es Hl.
  destruct (try_recv_cases s s1 new r h Hr Hh E) as [(m & hp & l & Hp & _ & _ & Hlog & Hl & _ & _ & H1 & H2 & _)|
    [(m & hp & l & Hp & _ & _ & Hlog & Hl & _ & _ & H1 & H2 & _)|[(H1 & H2 & H3 & _ & _ & Hlog & _)|(_ & _ & _ & _ & _ & Hlog & _)]]].
  - rewrite Hlog, app_comm_cons in Hk. apply app_inv_tail in Hk as <-. apply elem_of_cons in Hin as [[= ->]|Hin].
    + cbn. split_and!; [|done..]. rewrite (heap_pop_perm _ _ _ _ Hp). by left.
    + rewrite Forall_forall in Hl. apply Hl in Hin as [? ?]. done.
  - rewrite Hlog, app_comm_cons in Hk. apply app_inv_tail in Hk as <-. apply elem_of_cons in Hin as [[= ->]|Hin].
    + cbn. split_and!; [|done..]. rewrite (heap_pop_perm _ _ _ _ Hp). by left.
    + rewrite Forall_forall in Hl. apply Hl in Hin as (? & ? & ?). done.
  - rewrite Hlog in Hk. change (EvRecv r Shut :: log s) with ([EvRecv r Shut] ++ log s) in Hk. apply app_inv_tail in Hk as <-.
    apply elem_of_list_singleton in Hin as [= ->]. done.
  - rewrite Hlog in Hk. symmetry in Hk. apply app_cons_inj in Hk as ->. by apply elem_of_nil in Hin.
Qed.

(** A fresh receive completes at once if there is anything to receive. *)
Lemma recv_ready s t r h : reach s → next_action s t (UTryRecv r) → hols s !! r = Some h →
  (uq s ≠ [] ∨ backlog s (h_bq h) ≠ [] ∨ txc s = 0) ↔ ∃ a, newly s (step s (Step t)) (EvRecv r a).
Proof.
  intros Hr Hn Hh. destruct (try_recv_step s t r h Hr Hn Hh) as (rest & s1 & new & E & Es).
  assert (log (step s (Step t)) = log s1) as Hl by (by rewrite Es). unfold newly, between. rewrite Hl. clear Es Hl.
  destruct (try_recv_cases s s1 new r h Hr Hh E) as [(m & hp & l & Hp & _ & _ & Hlog & Hl & _ & _ & H1 & H2 & _)|
    [(m & hp & l & Hp & _ & _ & Hlog & Hl & _ & _ & H1 & H2 & _)|[(H1 & H2 & H3 & _ & _ & Hlog & _)|(H1 & H2 & H3 & _ & _ & Hlog & _)]]]; rewrite Hlog.
  - split; [intros _|].
    + exists (ToOne m), (EvRecv r (ToOne m) :: l). split; [done|by left].
    + intros _. left. intros Hu. rewrite Hu in Hp. done.
  - split; [intros _|].
    + exists (ToAll m), (EvRecv r (ToAll m) :: l). split; [done|by left].
    + intros _. right; left. intros Hb. rewrite Hb in Hp. done.
  - split; [intros _|auto]. exists Shut, [EvRecv r Shut]. split; [done|by left].
  - split; [intros [?|[?|?]]; [done|done|lia]|]. intros (a & k & Hk & Hin). symmetry in Hk.
    apply app_cons_inj in Hk as ->. by apply elem_of_nil in Hin.
Qed.

(** Draining. *)
Lemma drains_spec b s l s' : drains b s l s' → reach s →
  (Shut ∉ l → pending_for s b ≡ₚ l ++ pending_for s' b) ∧
  (∀ a, a ∈ l → a ≠ Shut → a ∈ pending_for s b) ∧
  StronglySorted not_above l.
Proof.
  induction 1 as [s|s o s' l Hu Hb Hd IH|s t r h a s' l Hn Hh Hq Hbt Hd IH]; intros Hr.
  - split; [done|]. split; [by intros a ?%elem_of_nil|constructor].
  - assert (pending_for (step s o) b = pending_for s b) as He by (unfold pending_for; by rewrite Hu, Hb).
    rewrite He in IH. apply IH. by apply reach_one.
  - specialize (IH (reach_one _ _ Hr)). destruct IH as (IH1 & IH2 & IH3).
    pose proof (recv_top s t r h a Hr Hn Hh (ex_intro _ _ (conj Hbt (elem_of_list_here _ _)))) as Htop.
    rewrite Hq in Htop.
    assert ((a ≠ Shut → pending_for s b ≡ₚ a :: pending_for (step s (Step t)) b) ∧ (a = Shut → pending_for (step s (Step t)) b = [])) as [HpP HpS].
    { destruct (try_recv_step s t r h Hr Hn Hh) as (rest & s1 & new & E & Es). 
      assert (pending_for (step s (Step t)) b = pending_for s1 b) as -> by (by rewrite Es).
      unfold between in Hbt. rewrite Es in Hbt. cbn in Hbt. clear Es.
      destruct (try_recv_cases s s1 new r h Hr Hh E) as [(m & hp & k & Hp & _ & _ & Hlog & Hl & Huq & Hbq & H1 & H2 & _)|
        [(m & hp & k & Hp & _ & _ & Hlog & Hl & Huq & Hbq & H1 & H2 & _)|[(H1 & H2 & H3 & _ & _ & Hlog & Hu & Hb)|(_ & _ & _ & _ & _ & Hlog & _)]]].
      - rewrite Hlog in Hbt. injection Hbt as <- Hk. apply app_cons_inj in Hk. specialize (Huq Hk). split; [intros _|done].
        unfold pending_for, backlog. rewrite Hbq, Huq, (heap_pop_perm _ _ _ _ Hp). done.
      - rewrite Hlog in Hbt. injection Hbt as <- Hk. apply app_cons_inj in Hk. specialize (Huq Hk). split; [intros _|done].
        unfold pending_for. rewrite Hq in *. rewrite Hbq, Huq, (heap_pop_perm _ _ _ _ Hp). rewrite fmap_cons. by rewrite Permutation_middle.
      - rewrite Hlog in Hbt. injection Hbt as <-. split; [done|]. intros _. unfold pending_for, backlog in *. rewrite Hb, Hu, H1.
        rewrite Hq in H2. by rewrite H2.
      - rewrite Hlog in Hbt. symmetry in Hbt. by apply (app_cons_inj [_]) in Hbt. }
    split_and!.
    + intros Hs. rewrite HpP by (intros ->; apply Hs; by left). cbn. f_equiv. apply IH1. intros ?; apply Hs. by right.
    + intros a' [->|Hin]%elem_of_cons Ha'; [|].
      * rewrite HpP by done. by left.
      * assert (a = Shut ∨ a ≠ Shut) as [->|Hne] by (destruct a; auto).
        { specialize (IH2 a' Hin Ha'). rewrite HpS in IH2 by done. by apply elem_of_nil in IH2. }
        rewrite HpP by done. right. by apply IH2.
    + constructor; [done|]. apply Forall_forall. intros x Hx. unfold not_above.
      destruct (amsg_prio x) as [px|] eqn:Ex; [|by destruct (amsg_prio a)].
      assert (x ≠ Shut) as Hne by (by intros ->). specialize (IH2 x Hx Hne).
      assert (a = Shut ∨ a ≠ Shut) as [->|Ha] by (destruct a; auto); [rewrite HpS in IH2 by done; by apply elem_of_nil in IH2|].
      assert (x ∈ pending_for s b) as Hin by (rewrite HpP by done; by right).
      unfold pending_for in Hin. rewrite elem_of_app, !elem_of_list_fmap in Hin.
      destruct a as [m|m|]; [| |done]; cbn [amsg_prio may_take] in *; destruct Htop as (Ht1 & Ht2 & Ht3);
        destruct Hin as [(y & -> & Hy)|(y & -> & Hy)]; cbn [amsg_prio] in Ex; injection Ex as <-; auto.
      apply Ht3. done.
Qed.
