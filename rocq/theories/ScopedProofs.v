(** Proofs about scoped tasks. *)
From stdpp Require Import base numbers list list_numbers.
From Coq Require Import Lia.
From Verif Require Import Prio Heap State Model Frame Lib InvBusy Effects Mono Events InvErr Spec Bridge FinalA FinalH Scoped ScopedSpec.

(** ** Join handles of others are not touched *)
Lemma api_jh s o j x : jhs s !! j = Some x → jh_live x = true → o ≠ ADropJoin j →
  ∃ x', jhs (api o s) !! j = Some x' ∧ jh_live x' = true.
Proof.
  intros Hj Hl Ho.
  destruct o; cbn [api]; repeat dgoal; cbv zeta; unfold add_addr, call, put_sf; repeat dgoal;
    repeat (progress (prj; autorewrite with fr_jhs)); try (by exists x).
  all: match goal with |- context [<[?a := _]> _ !! _] => destruct (decide (a = j)) as [->|Hn]; [|by rewrite ?list_lookup_insert_ne by done; exists x] end.
  all: try done. all: pose proof (lookup_lt_Some _ _ _ Em) as Hlt.
  all: rewrite list_lookup_insert by (by rewrite ?insert_length); eexists; split; done.
Qed.
Lemma exec_jh s u s1 new j x : exec u s = (s1, new) → jhs s !! j = Some x → jhs s1 !! j = Some x.
Proof.
  intros E Hj. exec_cases u E; repeat (progress (prj; autorewrite with fr_jhs)); try done. all: by apply lookup_app_l_Some.
Qed.
Lemma step_jh s o j x : jhs s !! j = Some x → jh_live x = true → o ≠ ADropJoin j →
  ∃ x', jhs (step s o) !! j = Some x' ∧ jh_live x' = true.
Proof.
  intros Hj Hl Ho. unfold step.
  assert (∀ y, jhs (collect y) = jhs y) as Hc. { intros y. unfold collect. destruct (chan_owned y); [done|]. by autorewrite with fr_jhs. }
  rewrite Hc. destruct o; try (by eapply api_jh). unfold do_step. destruct (thr s !! t) as [[|u rest]|]; try (by exists x).
  destruct (exec u s) as [s1 new] eqn:E. prj. exists x. split; [by eapply exec_jh|done].
Qed.
(** What polling a join handle tells. *)
Lemma poll_resolved s j x : jhs s !! j = Some x → jh_live x = true →
  newly s (step s (APollJoin j)) (EvJoin j (join_resolved (step s (APollJoin j)) j)).
Proof.
  intros Hj Hl. assert (∀ y, jhs (collect y) = jhs y ∧ ∃ k, log (collect y) = k ++ log y) as Hc.
  { intros y. unfold collect. destruct (chan_owned y); [split; [done|by exists []]|]. split; [by autorewrite with fr_jhs|]. apply free_logx. }
  destruct (Hc (api (APollJoin j) s)) as [Hc1 [k Hk]]. change (step s (APollJoin j)) with (collect (api (APollJoin j) s)).
  unfold join_resolved. rewrite Hc1. unfold newly, between. rewrite Hk. clear Hc Hc1 Hk. cbn [api]. rewrite Hj. pose proof (lookup_lt_Some _ _ _ Hj) as Hlt.
  assert (∀ e l l', e :: l = l' → ∃ k1, k ++ e :: l = k1 ++ l ∧ e ∈ k1) as HE.
  { intros e l l' _. exists (k ++ [e]). split; [by rewrite <-app_assoc|]. apply elem_of_app. right. by left. }
  destruct x as [[l|] [] w]; [|done| |done]; cbv zeta.
  - destruct (lsts s !! l) as [[[] lw]|] eqn:El; prj; rewrite list_lookup_insert by (by rewrite ?insert_length); by eapply HE.
  - prj. rewrite list_lookup_insert by done. by eapply HE.
Qed.

(** ** Histories *)
Lemma about_inj i k e : about i e → about k e → i = k.
Proof. destruct e; cbn; congruence. Qed.
Lemma prompt_app x n k : prompt_task x n → prompt_task x (n ++ k).
Proof. destruct x as [| ? []| |]; cbn; try done; intros (n' & ->); by exists (n' ++ k). Qed.
Lemma ok_app h k : task_history_ok h → (∀ k1 x k2, k = k1 ++ x :: k2 → legal_task (h ++ k1) x ∧ prompt_task x k2) → task_history_ok (h ++ k).
Proof.
  intros H Hk h1 x h2 E. apply app_eq_app in E as [l [[E1 E2]|[E1 E2]]].
  - destruct l as [|y l].
    + cbn in E2. rewrite app_nil_r in E1. subst h1. rewrite <-(app_nil_r h). apply Hk. by rewrite E2.
    + cbn in E2. injection E2 as <- ->. destruct (H h1 x l E1) as [H1 H2]. split; [done|]. by apply prompt_app.
  - subst h1. by apply Hk.
Qed.
Lemma last_app i h k e : last_about i h e → (∀ x, x ∈ k → ¬ about i x) → last_about i (h ++ k) e.
Proof.
  intros (Ha & p1 & p2 & -> & H) Hk. split; [done|]. exists p1, (p2 ++ k). split; [by rewrite <-app_assoc|].
  intros x [Hx|Hx]%elem_of_app; [by apply H|by apply Hk].
Qed.
Lemma last_end i h e : about i e → last_about i (h ++ [e]) e.
Proof. intros Ha. split; [done|]. exists h, []. split; [done|]. by intros x ?%elem_of_nil. Qed.

Definition task_inv (h : list tev) (i : nat) (t : task) : Prop :=
  match tk_st t with
  | TReady => (∃ j, last_about i h (TNew i j)) ∨ last_about i h (TReturn i None)
  | TInner => last_about i h (TPollJoin i false)
  | _ => True
  end.
Definition held (t : task) : Prop := match tk_st t with TGone => False | _ => True end.
Definition InvT (x : scs) : Prop :=
  reachable (sc_main x) ∧
  (∀ i t, sc_tasks x !! i = Some t → task_inv (sc_hist x) i t) ∧
  (∀ e i, e ∈ sc_hist x → about i e → i < length (sc_tasks x)) ∧
  task_history_ok (sc_hist x) ∧
  (∀ i t, sc_tasks x !! i = Some t → held t → ∃ y, jhs (sc_main x) !! tk_join t = Some y ∧ jh_live y = true) ∧
  (∀ i k t u, sc_tasks x !! i = Some t → sc_tasks x !! k = Some u → tk_join t = tk_join u → i = k).
Lemma step_reachable s o : reachable s → reachable (step s o).
Proof. intros (c & ops & ->). exists c, (ops ++ [o]). unfold run. by rewrite fold_left_app. Qed.
Lemma task_inv_app h k i t : task_inv h i t → (∀ x, x ∈ k → ¬ about i x) → task_inv (h ++ k) i t.
Proof. unfold task_inv. destruct (tk_st t); [|by apply last_app|done|done]. intros [[j H]|H] Hk; [left; exists j|right]; by apply last_app. Qed.
Lemma owns_spec l j : task_owns l j = true ↔ ∃ i t, l !! i = Some t ∧ tk_join t = j.
Proof.
  unfold task_owns. rewrite existsb_exists. split.
  - intros (t & Hin & E%Nat.eqb_eq). apply elem_of_list_In, elem_of_list_lookup in Hin as [i Hi]. by exists i, t.
  - intros (i & t & Hi & E). exists t. split; [apply elem_of_list_In; by eapply elem_of_list_lookup_2|by apply Nat.eqb_eq].
Qed.
(** One task changes and the history grows by events about it. *)
Lemma inv_update s s' l h i t t' k : InvT (SC s l h) → reachable s' → l !! i = Some t → tk_join t' = tk_join t →
  (∀ x, x ∈ k → about i x) → task_inv (h ++ k) i t' →
  (∀ k1 x k2, k = k1 ++ x :: k2 → legal_task (h ++ k1) x ∧ prompt_task x k2) →
  (∀ a u, l !! a = Some u → (a ≠ i ∧ held u) ∨ (a = i ∧ held t') → ∃ y, jhs s' !! tk_join u = Some y ∧ jh_live y = true) →
  InvT (SC s' (<[i := t']> l) (h ++ k)).
Proof.
  intros (I1 & I2 & I3 & I4 & I5 & I6) Hr Ht Hj Hk Hti Hok Hhold. cbn [sc_main sc_tasks sc_hist] in *. pose proof (lookup_lt_Some _ _ _ Ht) as Hlt.
  split_and!; cbn [sc_main sc_tasks sc_hist].
  - done.
  - intros a u [(-> & <- & _)|[Ha Hu]]%list_lookup_insert_Some; [done|]. apply task_inv_app; [by apply I2|]. intros x Hx Hab.
    by pose proof (about_inj _ _ _ Hab (Hk x Hx)).
  - intros e a [He|He]%elem_of_app Ha; rewrite insert_length; [by eapply I3|]. by rewrite (about_inj _ _ _ Ha (Hk _ He)).
  - by apply ok_app.
  - intros a u [(-> & <- & _)|[Ha Hu]]%list_lookup_insert_Some Hh.
    + rewrite Hj. eapply Hhold; [exact Ht|by right].
    + eapply Hhold; [exact Hu|left; split; [congruence|done]].
  - intros a b u v [(-> & <- & _)|[Ha Hu]]%list_lookup_insert_Some [(-> & <- & _)|[Hb Hv]]%list_lookup_insert_Some; [done|..].
    + rewrite Hj. by eapply I6.
    + rewrite Hj. by eapply I6.
    + by eapply I6.
Qed.
Lemma inv_step x o : InvT x → InvT (sc_step x o).
Proof.
  destruct x as [s l h]. intros HI. pose proof HI as (I1 & I2 & I3 & I4 & I5 & I6). cbn [sc_main sc_tasks sc_hist] in *.
  destruct o as [o|j|i|i r|i]; cbn [sc_step].
  - destruct (foreign l o) eqn:Hf; [|done]. split_and!; cbn [sc_main sc_tasks sc_hist]; try done; [by apply step_reachable|].
    intros i t Ht Hh. destruct (I5 i t Ht Hh) as (y & Hy & Hl). eapply step_jh; [done..|]. intros ->. cbn in Hf.
    assert (task_owns l (tk_join t) = true) as E by (apply owns_spec; by eexists _, _). by rewrite E in Hf.
  - destruct (jhs s !! j) as [[jl [] w]|] eqn:Hj; [|done..]. destruct (task_owns l j) eqn:Hown; [done|]. destruct (never_polled s j); [|done]. cbn [orb negb].
    assert (∀ y, y ∈ h → ¬ about (length l) y) as Hfresh. { intros y Hy Ha. specialize (I3 _ _ Hy Ha). lia. }
    split_and!; cbn [sc_main sc_tasks sc_hist].
    + done.
    + intros i t [Hi|[Hi Ht]]%lookup_app_Some.
      * apply task_inv_app; [by apply I2|]. intros x ->%elem_of_list_singleton. cbn. apply lookup_lt_Some in Hi. lia.
      * apply list_lookup_singleton_Some in Ht as [Hi' <-]. assert (i = length l) as -> by lia. left. exists j. by apply last_end.
    + intros e i [He| ->%elem_of_list_singleton]%elem_of_app Ha; rewrite app_length; cbn; [specialize (I3 _ _ He Ha); lia|cbn in Ha; lia].
    + apply ok_app; [done|]. intros [|a k1] x k2 Ek; [|by destruct k1]. injection Ek as <- <-. rewrite app_nil_r. split; [exact Hfresh|done].
    + intros i t [Hi|[Hi Ht]]%lookup_app_Some; [by eapply I5|]. apply list_lookup_singleton_Some in Ht as [_ <-]. intros _. by eexists.
    + assert (∀ i t, l !! i = Some t → tk_join t ≠ j) as Hne.
      { intros i t Hi E. assert (task_owns l j = true) as E' by (apply owns_spec; by eexists _, _). by rewrite E' in Hown. }
      intros a b u v [Ha|[Ha Hu]]%lookup_app_Some [Hb|[Hb Hv]]%lookup_app_Some.
      * by eapply I6.
      * apply list_lookup_singleton_Some in Hv as [_ <-]. cbn. intros E. by destruct (Hne _ _ Ha).
      * apply list_lookup_singleton_Some in Hu as [_ <-]. cbn. intros E. by destruct (Hne _ _ Hb).
      * apply list_lookup_singleton_Some in Hu as [E1 _], Hv as [E2 _]. lia.
  - destruct (l !! i) as [[j []]|] eqn:Hi; try done. cbv zeta.
    assert (∀ a u, l !! a = Some u → held u → ∃ y, jhs (step s (APollJoin j)) !! tk_join u = Some y ∧ jh_live y = true) as Hheld.
    { intros a u Ha Hu. destruct (I5 a u Ha Hu) as (y & Hy & Hl). by eapply step_jh. }
    pose proof (I2 i _ Hi) as HT. unfold task_inv in HT. cbn in HT.
    destruct (join_resolved _ j).
    + eapply inv_update; [done|by apply step_reachable|done|done| |done| |].
      * intros x [->|[->|Hx]%elem_of_cons]%elem_of_cons; [done|done|by apply elem_of_nil in Hx].
      * intros [|a [|b k1]] x k2 Ek; [| |by destruct k1]; injection Ek as; subst; rewrite ?app_nil_r.
        { split; [done|]. by eexists. } split; [by eexists|done].
      * intros a u Ha [[_ Hu]|[-> _]]; [by eapply Hheld|]. eapply Hheld; [done|]. by rewrite Hi in Ha; injection Ha as <-.
    + eapply inv_update; [done|by apply step_reachable|done|done| | | |].
      * by intros x ->%elem_of_list_singleton.
      * by apply last_end.
      * intros [|a k1] x k2 Ek; [|by destruct k1]. injection Ek as <- <-. rewrite app_nil_r. by split.
      * intros a u Ha [[_ Hu]|[-> _]]; [by eapply Hheld|]. eapply Hheld; [done|]. by rewrite Hi in Ha; injection Ha as <-.
  - destruct (l !! i) as [[j []]|] eqn:Hi; try done.
    pose proof (I2 i _ Hi) as HT. unfold task_inv in HT. cbn in HT.
    destruct r as [v|].
    + eapply inv_update; [done..| |done| |].
      * intros x [->|[->|Hx]%elem_of_cons]%elem_of_cons; [done|done|by apply elem_of_nil in Hx].
      * intros [|a [|b k1]] x k2 Ek; [| |by destruct k1]; injection Ek as; subst; rewrite ?app_nil_r.
        { split; [done|]. by eexists. } split; [by eexists|done].
      * intros a u Ha [[_ Hu]|[-> _]]; [by eapply I5|]. eapply I5; [done|]. by rewrite Hi in Ha; injection Ha as <-.
    + eapply inv_update; [done..| | | |].
      * intros x [->|[->|Hx]%elem_of_cons]%elem_of_cons; [done|done|by apply elem_of_nil in Hx].
      * right. change [TPollInner i None; TReturn i None] with ([TPollInner i None] ++ [TReturn i None]). rewrite app_assoc. by apply last_end.
      * intros [|a [|b k1]] x k2 Ek; [| |by destruct k1]; injection Ek as; subst; rewrite ?app_nil_r.
        { split; [done|]. by eexists. } split; [by eexists|done].
      * intros a u Ha [[_ Hu]|[-> _]]; [by eapply I5|]. eapply I5; [done|]. by rewrite Hi in Ha; injection Ha as <-.
  - assert (∀ j st, l !! i = Some (TK j st) → InvT (SC (step s (ADropJoin j)) (<[i := TK j TGone]> l) h)) as HD.
    { intros j st Hi. rewrite <-(app_nil_r h). eapply inv_update; [done|by apply step_reachable|done|done|by intros x ?%elem_of_nil|done|by intros [] ??|].
      intros a u Ha [[Hne Hu]|[_ []]]. destruct (I5 a u Ha Hu) as (y & Hy & Hl). eapply step_jh; [done..|]. intros [= E].
      apply Hne. by eapply I6. }
    destruct (l !! i) as [[j []]|] eqn:Hi; try done; by eapply HD.
Qed.
Lemma sc_inv c ops : InvT (sc_run c ops).
Proof.
  unfold sc_run. assert (InvT (sc_init c)) as H.
  { split_and!; cbn; try done; [by exists c, []|by intros ? ? ?%elem_of_nil|by intros []]. }
  revert H. generalize (sc_init c). induction ops as [|o ops IH]; intros x Hx; [done|]. cbn. apply IH, inv_step, Hx.
Qed.

(** ** The property *)
Lemma task_ok c ops : task_history_ok (sc_hist (sc_run c ops)).
Proof. apply sc_inv. Qed.
Lemma task_main c ops : reachable (sc_main (sc_run c ops)).
Proof. apply sc_inv. Qed.
(** A poll of a task that is not finished polls its join handle. *)
Lemma task_poll c ops i j : let x := sc_run c ops in sc_tasks x !! i = Some (TK j TReady) →
  let s := sc_main x in
  ∃ b, newly s (step s (APollJoin j)) (EvJoin j b) ∧ sc_main (sc_step x (SPoll i)) = step s (APollJoin j) ∧
    sc_hist (sc_step x (SPoll i)) = sc_hist x ++ TPollJoin i b :: (if b then [TReturn i (Some None)] else []).
Proof.
  cbv zeta. intros Hi. destruct (sc_inv c ops) as (I1 & I2 & I3 & I4 & I5 & I6). destruct (I5 _ _ Hi I) as (y & Hy & Hl).
  cbn in Hy. pose proof (poll_resolved _ _ _ Hy Hl) as H. destruct (sc_run c ops) as [s l h]. cbn [sc_main sc_tasks sc_hist] in *.
  exists (join_resolved (step s (APollJoin j)) j). split; [done|]. cbn [sc_step]. rewrite Hi. cbv zeta. by destruct (join_resolved _ j).
Qed.
(** The events of the join handle of a task. *)
Lemma never_spec s j b : never_polled s j = true → EvJoin j b ∉ log s.
Proof. unfold never_polled. rewrite forallb_forall. intros H He%elem_of_list_In. apply H in He. by rewrite Nat.eqb_refl in He. Qed.
Lemma step_join_ev s o j b : EvJoin j b ∈ log (step s o) → EvJoin j b ∈ log s ∨ o = APollJoin j.
Proof.
  intros H. destruct (step_logx s o) as [k Hk]. rewrite Hk in H. apply elem_of_app in H as [H|H]; [|by left]. right.
  assert (newly s (step s o) (EvJoin j b)) as Hn by (exists k; by split).
  destruct (step_evs s o _ Hn) as [(?&?&?)|Hn']; [done|]. destruct o; try (apply api_new_ev in Hn' as [_ Hn']; exact Hn').
  destruct Hn' as (k' & E & He). unfold between, do_step in E. destruct (thr s !! t) as [[|u rest]|].
  - apply (f_equal length) in E. rewrite app_length in E. destruct k'; [by apply elem_of_nil in He|cbn in E; lia].
  - destruct (exec u s) as [s1 new] eqn:Ex. destruct (exec_evs u s s1 new Ex) as (k2 & E2 & H2). revert E. prj. rewrite E2. intros E%app_inv_tail. subst k'.
    by apply H2 in He.
  - apply (f_equal length) in E. rewrite app_length in E. destruct k'; [by apply elem_of_nil in He|cbn in E; lia].
Qed.
Definition InvJ (x : scs) : Prop := ∀ i t, sc_tasks x !! i = Some t →
  (tk_st t = TReady ∨ tk_st t = TInner → EvJoin (tk_join t) true ∉ log (sc_main x)) ∧
  (∀ b, TPollJoin i b ∈ sc_hist x → EvJoin (tk_join t) b ∈ log (sc_main x)).
Lemma step_log_in s o e : e ∈ log s → e ∈ log (step s o).
Proof. destruct (step_logx s o) as [k ->]. intros H. apply elem_of_app. by right. Qed.
Lemma poll_event s j x b : jhs s !! j = Some x → jh_live x = true → EvJoin j b ∈ log (step s (APollJoin j)) → EvJoin j b ∈ log s ∨ b = join_resolved (step s (APollJoin j)) j.
Proof.
  intros Hj Hl H. destruct (step_logx s (APollJoin j)) as [k Hk]. rewrite Hk in H. apply elem_of_app in H as [H|H]; [right|by left].
  assert (newly s (step s (APollJoin j)) (EvJoin j b)) as H1 by (exists k; by split).
  pose proof (poll_resolved s j x Hj Hl) as H2.
  destruct (step_evs s (APollJoin j) _ H1) as [(?&?&?)|H1']; [done|]. destruct (step_evs s (APollJoin j) _ H2) as [(?&?&?)|H2']; [done|].
  apply api_new_ev in H1' as [E1 _], H2' as [E2 _]. congruence.
Qed.
Lemma invJ_step x o : InvT x → InvJ x → InvJ (sc_step x o).
Proof.
  destruct x as [s l h]. intros (I1 & I2 & I3 & I4 & I5 & I6) J. unfold InvJ in *. cbn [sc_main sc_tasks sc_hist] in *.
  assert (∀ o', (∀ i t, l !! i = Some t → o' ≠ APollJoin (tk_join t)) → ∀ i t, l !! i = Some t →
    (tk_st t = TReady ∨ tk_st t = TInner → EvJoin (tk_join t) true ∉ log (step s o')) ∧
    (∀ b, TPollJoin i b ∈ h → EvJoin (tk_join t) b ∈ log (step s o'))) as HS.
  { intros o' Ho i t Hi. destruct (J i t Hi) as [J1 J2]. split; [|intros b Hb; by apply step_log_in, J2].
    intros Hst He. apply step_join_ev in He as [He|He]; [by apply J1|]. by eapply Ho. }
  destruct o as [o|j|i|i r|i]; cbn [sc_step].
  - destruct (foreign l o) eqn:Hf; [|done]. cbn [sc_main sc_tasks sc_hist]. apply HS. intros i t Hi ->. cbn in Hf.
    assert (task_owns l (tk_join t) = true) as E by (apply owns_spec; by eexists _, _). by rewrite E in Hf.
  - destruct (jhs s !! j) as [[jl [] w]|] eqn:Hj; [|done..]. destruct (task_owns l j) eqn:Hown; [done|]. destruct (never_polled s j) eqn:Hnp; [|done]. cbn [orb negb].
    cbn [sc_main sc_tasks sc_hist]. intros i t [Hi|[Hi Ht]]%lookup_app_Some.
    + destruct (J i t Hi) as [J1 J2]. split; [done|]. intros b [Hb|Hb%elem_of_list_singleton]%elem_of_app; [by apply J2|done].
    + apply list_lookup_singleton_Some in Ht as [Hi' <-]. cbn. split; [intros _; by apply never_spec|].
      intros b [Hb|Hb%elem_of_list_singleton]%elem_of_app; [|done]. specialize (I3 _ i Hb eq_refl). lia.
  - destruct (l !! i) as [[j []]|] eqn:Hi; try done. cbv zeta.
    destruct (I5 i _ Hi I) as (y & Hy & Hl). cbn in Hy. pose proof (poll_event s j y true Hy Hl) as HE. pose proof (poll_resolved s j y Hy Hl) as (k & Ek & HR).
    assert (∀ a u, l !! a = Some u → a ≠ i → tk_join u ≠ j) as Hne. { intros a u Ha Hai E. apply Hai. by eapply I6. }
    assert (∀ a u, l !! a = Some u → a ≠ i →
      (tk_st u = TReady ∨ tk_st u = TInner → EvJoin (tk_join u) true ∉ log (step s (APollJoin j))) ∧
      (∀ b, TPollJoin a b ∈ h → EvJoin (tk_join u) b ∈ log (step s (APollJoin j)))) as HO.
    { intros a u Ha Hai. destruct (J a u Ha) as [J1 J2]. split; [|intros b Hb; by apply step_log_in, J2].
      intros Hst He. apply step_join_ev in He as [He|[= He]]; [by apply J1|]. by eapply Hne. }
    destruct (J i _ Hi) as [J1 J2]. cbn in J1, J2. unfold between in Ek.
    assert (EvJoin j (join_resolved (step s (APollJoin j)) j) ∈ log (step s (APollJoin j))) as HR2 by (rewrite Ek; apply elem_of_app; by left).
    destruct (join_resolved _ j); cbn [sc_main sc_tasks sc_hist]; intros a u [(-> & <- & _)|[Ha Hu]]%list_lookup_insert_Some; cbn.
    + split; [by intros []|]. intros b [Hb|Hb]%elem_of_app; [by apply step_log_in, J2|].
      apply elem_of_cons in Hb as [[= ->]|Hb%elem_of_list_singleton]; done.
    + destruct (HO a u Hu) as [H1 H2]; [congruence|]. split; [done|]. intros b [Hb|Hb]%elem_of_app; [by apply H2|].
      apply elem_of_cons in Hb as [[= -> ->]|Hb%elem_of_list_singleton]; done.
    + split; [intros _ He; destruct (HE He) as [He2|]; [|done]; apply J1; [by left|done]|]. intros b [Hb|Hb%elem_of_list_singleton]%elem_of_app; [by apply step_log_in, J2|].
      by injection Hb as ->.
    + destruct (HO a u Hu) as [H1 H2]; [congruence|]. split; [done|]. intros b [Hb|Hb%elem_of_list_singleton]%elem_of_app; [by apply H2|]. by injection Hb as -> ->.
  - destruct (l !! i) as [[j []]|] eqn:Hi; try done. destruct (J i _ Hi) as [J1 J2]. cbn in J1, J2.
    destruct r as [v|]; cbn [sc_main sc_tasks sc_hist]; intros a u [(-> & <- & _)|[Ha Hu]]%list_lookup_insert_Some; cbn.
    1,3: split; [|intros b [Hb|Hb]%elem_of_app; [by apply J2|]; by apply elem_of_cons in Hb as [?|Hb%elem_of_list_singleton]]; first [by intros []|intros _; apply J1; by right].
    all: destruct (J a u Hu) as [J3 J4]; split; [done|]; intros b [Hb|Hb]%elem_of_app; [by apply J4|]; by apply elem_of_cons in Hb as [?|Hb%elem_of_list_singleton].
  - assert (∀ j st, l !! i = Some (TK j st) → InvJ (SC (step s (ADropJoin j)) (<[i := TK j TGone]> l) h)) as HD.
    { intros j st Hi a u. cbn [sc_main sc_tasks sc_hist]. intros [(-> & <- & _)|[Ha Hu]]%list_lookup_insert_Some; cbn.
      - split; [by intros []|]. destruct (J _ _ Hi) as [_ J2]. intros b Hb. by apply step_log_in, J2.
      - by apply HS. }
    destruct (l !! i) as [[j []]|] eqn:Hi; try done; by eapply HD.
Qed.
Lemma sc_invJ c ops : InvJ (sc_run c ops).
Proof.
  unfold sc_run. assert (InvT (sc_init c)) as H by exact (sc_inv c []). assert (InvJ (sc_init c)) as HJ by done.
  revert H HJ. generalize (sc_init c). induction ops as [|o ops IH]; intros x Hx HJ; [done|]. cbn. apply IH; [by apply inv_step|by apply invJ_step].
Qed.
Lemma last_in i h e : last_about i h e → e ∈ h.
Proof. intros (_ & p1 & p2 & -> & _). apply elem_of_app. right. by left. Qed.
(** A task whose last poll returned Pending polled its join handle. *)
Lemma pending_polled h i : task_history_ok h → last_about i h (TReturn i None) → TPollJoin i false ∈ h.
Proof.
  intros Hok (_ & p1 & p2 & -> & _). destruct (Hok _ _ _ eq_refl) as [[p' ->] _].
  assert ((p' ++ [TPollInner i None]) ++ TReturn i None :: p2 = p' ++ TPollInner i None :: TReturn i None :: p2) as E by (by rewrite <-app_assoc).
  rewrite E in *. destruct (Hok _ _ _ eq_refl) as [HL _]. cbn in HL. apply last_in in HL. apply elem_of_app. by left.
Qed.
Lemma task_pending c ops i j : let x := sc_run c ops in sc_tasks x !! i = Some (TK j TReady) → last_about i (sc_hist x) (TReturn i None) →
  join_pending (sc_main x) j ∧ ∃ y, jhs (sc_main x) !! j = Some y.
Proof.
  cbv zeta. intros Hi HL. destruct (sc_inv c ops) as (I1 & I2 & I3 & I4 & I5 & I6). destruct (sc_invJ c ops i _ Hi) as [J1 J2].
  split; [split|].
  - apply J2. by apply pending_polled.
  - apply J1. by left.
  - destruct (I5 i _ Hi I) as (y & Hy & _). by exists y.
Qed.
