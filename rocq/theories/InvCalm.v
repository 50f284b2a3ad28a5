(** When no two calls overlap, the window in which a receive future loses a message does not exist. *)
From stdpp Require Import base numbers list list_numbers.
From Coq Require Import Lia.
From Verif Require Import Prio Heap State Model HeapProofs Frame Lib InvBusy InvCount Effects InvMsg InvOne Mono Events Spec.

Definition g_odx (u : micro) : nat := match u with UOneDrop _ => 1 | _ => 0 end.
Definition g_win (u : micro) : nat := match u with UDropMsg _ DWindow => 1 | _ => 0 end.
Definition tl (u : micro) : Prop := match u with URxDec | URxShutdown | UBqRel _ | UOneDrop _ => True | _ => False end.
Definition odp (s : state) (p : list micro) : Prop := ∀ o, UOneDrop o ∈ p →
  (∃ b, p = UCancel o :: rx_drop b ++ [UOneDrop o]) ∨
  (∃ m b rx, p = URequeue m :: rx_drop b ++ [UOneDrop o] ∧ ones s !! o = Some (ON rx OTaken)) ∨
  (Forall tl p ∧ ∀ rx m, ones s !! o ≠ Some (ON rx (OFull (CNewMsg m)))).
Definition calm (s : state) : Prop :=
  (∃ t0, ∀ t u p, thr s !! t = Some (u :: p) → t = t0) ∧ (∀ t p, thr s !! t = Some p → odp s p ∧ Σ g_win p = 0) ∧
  (∀ m, EvDrop m DWindow ∉ log s).

Lemma exec_odx u s s1 new : exec u s = (s1, new) → Σ g_odx new = 0.
Proof.
  intros E. exec_cases u E; unfold rx_drop, payload_drop, amsg_drop, tx_drop in *; try (rewrite sum_notify by done); rewrite ?sum_list_with_app;
   repeat match goal with |- context [match ?x with _ => _ end] => destruct x end; cbn; done.
Qed.
Lemma exec_win u s s1 new : exec u s = (s1, new) → (∀ o, u ≠ UOneDrop o) → Σ g_win new = 0.
Proof.
  intros E Hu. exec_cases u E; unfold rx_drop, payload_drop, amsg_drop, tx_drop in *; try (rewrite sum_notify by done); rewrite ?sum_list_with_app;
   repeat match goal with |- context [match ?x with _ => _ end] => destruct x end; cbn; try done; by edestruct Hu.
Qed.
Lemma odx_in p o : UOneDrop o ∈ p → 0 < Σ g_odx p.
Proof. intros [i Hi]%elem_of_list_lookup. pose proof (sum_lookup g_odx _ _ _ Hi). cbn in *. lia. Qed.
Lemma odx_drop p h : hol_drop h = Some p → Σ g_win p = 0 ∧ ∀ o, UOneDrop o ∈ p → ∃ b, p = UCancel o :: rx_drop b ++ [UOneDrop o].
Proof.
  unfold hol_drop. destruct (h_st h) as [| | |o|a|a|a|]; intros [= <-]; try (by destruct a);
   (split; [by try destruct a|]); intros o' Ho;
   try (apply odx_in in Ho; unfold rx_drop, amsg_drop in Ho; try destruct a; cbn in Ho; lia).
  exists (h_bq h). unfold rx_drop in *. cbn in Ho. repeat (apply elem_of_cons in Ho as [Ho|Ho]; [try done; by injection Ho as ->|]). by apply elem_of_nil in Ho.
Qed.
Lemma odx_sf p f : sf_drop f = Some p → Σ g_win p = 0 ∧ Σ g_odx p = 0.
Proof.
  unfold sf_drop, payload_drop, tx_drop. cbv zeta. intros H.
  destruct (sf_mode f) as [|[]|], (sf_st f) as [[] []| | | |]; cbn in H; simplify_eq; done.
Qed.
Lemma api_odx o s : (∀ t, o ≠ Step t) →
  thr (api o s) = thr s ∨ ∃ p, thr (api o s) = thr s ++ [p] ∧ Σ g_win p = 0 ∧ ∀ o, UOneDrop o ∈ p → ∃ b, p = UCancel o :: rx_drop b ++ [UOneDrop o].
Proof.
  intros _. destruct o; cbn [api]; repeat (dgoal; try (by left)); cbv zeta; unfold add_addr; repeat dgoal;
    repeat (progress (prj; autorewrite with fr_thr)); try (by left); right; eexists; (split; [reflexivity|]);
    try (by eapply odx_drop); 
    try (match goal with H : sf_drop _ = Some _ |- _ => apply odx_sf in H as [? ?]; split; [done|]; intros o' Ho%odx_in; lia end);
    (split; [unfold tx_drop, rx_drop; repeat case_match; cbn; done|]);
    intros o' Ho%odx_in; unfold tx_drop, rx_drop in Ho; repeat case_match; cbn in Ho; lia.
Qed.

Lemma fulfill_taken m ws s o rx : ones s !! o = Some (ON rx OTaken) → ones (fulfill ws m s).1 !! o = Some (ON rx OTaken).
Proof.
  revert s; induction ws as [|o' ws IH]; intros s Ho; [done|]. cbn [fulfill]. unfold one_send.
  destruct (ones s !! o') as [[rx' x']|] eqn:E; [|by apply IH]. destruct rx'; [|by apply IH]. destruct x'; try (by apply IH).
  cbn [fst]. prj. autorewrite with fr_ones. prj. rewrite list_lookup_insert_ne by congruence. done.
Qed.
Lemma no_odx p : Σ g_odx p = 0 → ∀ s, odp s p.
Proof. intros H s o Ho%odx_in. lia. Qed.
Lemma calm_exec s t u rest s1 new : calm s → thr s !! t = Some (u :: rest) → exec u s = (s1, new) →
  odp s1 (new ++ rest) ∧ Σ g_win (new ++ rest) = 0.
Proof.
  intros (_ & Hp & _) Ht E. destruct (Hp _ _ Ht) as [Ho Hw]. cbn in Hw. rewrite sum_list_with_app.
  assert (Σ g_win rest = 0) as Hw2 by lia.
  destruct (decide (Σ g_odx (u :: rest) = 0)) as [H0|H0].
  { split; [apply no_odx; rewrite sum_list_with_app; pose proof (exec_odx _ _ _ _ E); cbn in H0; lia|].
    rewrite (exec_win _ _ _ _ E); [done|]. intros o ->. cbn in H0. lia. }
  assert (∃ o, UOneDrop o ∈ u :: rest) as [o Hin].
  { assert (0 < Σ g_odx (u :: rest)) as H by lia. apply sum_pos in H as (v & Hv & Hg). destruct v; cbn in Hg; try lia. eauto. }
  destruct (Ho o Hin) as [[b [= -> ->]]|[(m & b & rx & [= -> ->] & Ht')|[HF Hn]]].
  - (* cancel *)
    cbn [exec] in E. unfold exec_cancel in E.
    assert (∀ k, UOneDrop k ∈ rx_drop b ++ [UOneDrop o] → k = o) as Hk.
    { intros k Hk. unfold rx_drop in Hk. cbn in Hk. repeat (apply elem_of_cons in Hk as [Hk|Hk]; [try done; by injection Hk|]). by apply elem_of_nil in Hk. }
    destruct (ones s !! o) as [[rx [w|c| |]]|] eqn:Eo; simplify_eq; split; try (by repeat case_match); intros k Hk'.
    all: try (assert (k = o) as -> by (apply Hk; by repeat case_match)).
    + right; right. split; [by repeat constructor|]. intros rx' m'. congruence.
    + assert (o < length (ones s)) by by eapply lookup_lt_Some.
      assert (k = o) as -> by (destruct c as [m| |]; cbn [app] in Hk'; [apply elem_of_cons in Hk' as [?|Hk']; [done|]|..]; by apply Hk).
      right. destruct c as [m| |]; [left|right..].
      * exists m, b, rx. split; [done|]. prj. by apply list_lookup_insert.
      * split; [by repeat constructor|]. intros rx' m'. prj. by rewrite list_lookup_insert.
      * split; [by repeat constructor|]. intros rx' m'. prj. by rewrite list_lookup_insert.
    + right; right. split; [by repeat constructor|]. intros rx' m'. congruence.
    + right; right. split; [by repeat constructor|]. intros rx' m'. congruence.
    + right; right. split; [by repeat constructor|]. intros rx' m'. congruence.
  - (* requeue *)
    assert (∀ k, UOneDrop k ∈ rx_drop b ++ [UOneDrop o] → k = o) as Hk.
    { intros k Hk. unfold rx_drop in Hk. cbn in Hk. repeat (apply elem_of_cons in Hk as [Hk|Hk]; [try done; by injection Hk|]). by apply elem_of_nil in Hk. }
    assert (new = [] ∧ ones s1 !! o = Some (ON rx OTaken)) as [-> H1].
    { cbn [exec] in E. unfold try_fulfill_receiver in E. pose proof (fulfill_taken m (wrx s) s o rx Ht') as H.
      destruct (fulfill _ _ _) as [x []]; simplify_eq; split; done. }
    split; [|done]. intros k Hk'. right; right. rewrite (Hk k Hk'). split; [by repeat constructor|]. intros rx' m'. rewrite H1. done.
  - (* tail *)
    assert (Forall tl rest) as HF2 by (by inversion HF).
    assert (∀ k, UOneDrop k ∈ u :: rest → ∀ rx m, ones s !! k ≠ Some (ON rx (OFull (CNewMsg m)))) as Hall.
    { intros k Hk. destruct (Ho k Hk) as [[b Eb]|[(m & b & rx & Eb & _)|[_ Hn']]]; [rewrite Eb in HF; by inversion HF|rewrite Eb in HF; by inversion HF|done]. }
    assert (Forall tl new ∧ Σ g_win new = 0 ∧ ∀ k rx m, ones s !! k ≠ Some (ON rx (OFull (CNewMsg m))) → ones s1 !! k ≠ Some (ON rx (OFull (CNewMsg m)))) as (N1 & N2 & N3).
    2: { split; [|lia]. intros k Hk. assert (UOneDrop k ∈ u :: rest) as Hk'.
         { apply elem_of_app in Hk as [Hk|Hk]; [|by apply elem_of_cons; right]. apply odx_in in Hk. pose proof (exec_odx _ _ _ _ E). lia. }
         right; right. split; [by apply Forall_app|]. intros rx m. apply N3. by apply Hall. }
    inversion HF as [|? ? Hu _]; subst. destruct u; try done; cbn [exec] in E.
    + simplify_eq. split_and!; [by case_match; repeat constructor|by case_match|done].
    + simplify_eq. split_and!; [constructor|done|]. intros k rx m H. by autorewrite with fr_ones.
    + destruct (bqueues s !! b); simplify_eq; split_and!; try constructor; done.
    + rename o0 into o'. assert (∀ rx m, ones s !! o' ≠ Some (ON rx (OFull (CNewMsg m)))) as Ho' by (apply Hall; by left).
      destruct (ones s !! o') as [[rx' x']|] eqn:E'; [|simplify_eq; split_and!; try constructor; done].
      assert (∀ y, (∀ m, y ≠ OFull (CNewMsg m)) → ∀ k rx m, ones s !! k ≠ Some (ON rx (OFull (CNewMsg m))) → <[o' := ON false y]> (ones s) !! k ≠ Some (ON rx (OFull (CNewMsg m)))) as HN.
      { intros y Hy k rx m Hk Hc. apply list_lookup_insert_Some in Hc as [(-> & [= Hc1 Hc2] & _)|[_ Hc]]; [by eapply Hy|done]. }
      destruct x' as [w|c| |]; simplify_eq.
      * split_and!; [constructor|done|]. intros k rx m Hk. prj. by apply HN.
      * destruct c as [m| |]; [by edestruct Ho'|..]; (split_and!; [constructor|done|]); intros k rx m Hk; prj; by apply HN.
      * split_and!; [constructor|done|]. intros k rx m Hk. prj. by apply HN.
      * split_and!; [constructor|done|]. intros k rx m Hk. prj. by apply HN.
Qed.

Lemma calm_collect s : calm s → calm (collect s).
Proof.
  intros (H1 & H2 & H3). unfold collect. destruct (chan_owned s) eqn:E; [done|].
  assert (∀ t p, thr s !! t = Some p → p = []) as Hq.
  { intros t p Ht. unfold chan_owned in E. rewrite !orb_false_iff in E. destruct E as [_ E]. destruct p as [|u p]; [done|]. exfalso.
    assert (existsb (λ p : list micro, match p with [] => false | _ => true end) (thr s) = true) as H'; [|congruence].
    apply existsb_exists. exists (u :: p). split; [|done]. by eapply elem_of_list_In, elem_of_list_lookup_2. }
  split_and!; autorewrite with fr_thr.
  - destruct H1 as [t0 H1]. by exists t0.
  - intros t p Ht. autorewrite with fr_thr in Ht. rewrite (Hq _ _ Ht). split; [|done]. intros o Ho. by apply elem_of_nil in Ho.
  - intros m Hm. destruct (free_evs s) as (k & Hk & He). rewrite Hk in Hm. apply elem_of_app in Hm as [Hm|Hm]; [|by eapply H3].
    destruct (He _ Hm) as (m' & y & [= <- <-] & [|]); done.
Qed.
Lemma calm_step s o : calm s → ((∀ t, o ≠ Step t) → quiet s) → calm (step s o).
Proof.
  intros Hc Hq. pose proof Hc as ([t0 H1] & H2 & H3). assert ((∃ t, o = Step t) ∨ ¬ ∃ t, o = Step t) as [[t ->]|Hn] by (destruct o; first [by left; eexists|by right; intros [? ?]]).
  - unfold step. apply calm_collect. unfold do_step. destruct (thr s !! t) as [[|u rest]|] eqn:Ht; try done.
    destruct (exec u s) as [s1 new] eqn:E.
    assert (thr s1 = thr s) as Hthr by (pose proof (exec_thr u s) as H; by rewrite E in H).
    assert (t < length (thr s)) as Hlt by by eapply lookup_lt_Some.
    split_and!; prj; rewrite ?Hthr.
    + exists t0. intros t' v p [(-> & _ & _)|[_ Ht']]%list_lookup_insert_Some; [by eapply H1|by eapply H1].
    + intros t' p [(-> & <- & _)|[Hne Ht']]%list_lookup_insert_Some; [exact (calm_exec s _ u rest s1 new Hc Ht E)|].
      destruct p as [|v p]; [|pose proof (H1 _ _ _ Ht); pose proof (H1 _ _ _ Ht'); congruence]. split; [|done]. intros o Ho. by apply elem_of_nil in Ho.
    + intros m Hm. destruct (exec_evs _ _ _ _ E) as (k & Hk & He). rewrite Hk in Hm. apply elem_of_app in Hm as [Hm|Hm]; [|by eapply H3].
      destruct (He _ Hm) as [[-> [|]]|(x & -> & ->)]; [done..|]. destruct (H2 _ _ Ht) as [_ Hw]. cbn in Hw. lia.
  - assert (∀ t, o ≠ Step t) as Hn' by (intros t ->; by apply Hn; exists t). specialize (Hq Hn').
    assert (step s o = collect (api o s)) as -> by (destruct o; first [reflexivity|exfalso; by eapply Hn']).
    apply calm_collect.
    assert (∀ t p, thr s !! t = Some p → p = []) as Hq'.
    { intros t p Ht. by apply (Hq t). }
    assert (∀ m, EvDrop m DWindow ∉ log (api o s)) as HL.
    { intros m Hm. destruct (api_evs o s) as [E|(e & E & He)]; rewrite E in Hm; [by eapply H3|]. apply elem_of_cons in Hm as [<-|Hm]; [done|by eapply H3]. }
    destruct (api_odx o s Hn') as [Eq|(p & Eq & Hw & Hp)]; (split_and!; [..|done]); rewrite Eq.
    + exists t0. intros t u p Ht. by specialize (Hq' _ _ Ht).
    + intros t p Ht. rewrite (Hq' _ _ Ht). split; [|done]. intros k Hk. by apply elem_of_nil in Hk.
    + exists (length (thr s)). intros t u q [Ht|[Hge Ht]]%lookup_app_Some; [by specialize (Hq' _ _ Ht)|].
      apply list_lookup_singleton_Some in Ht as [Ht _]. lia.
    + intros t q [Ht|[Hge Ht]]%lookup_app_Some.
      * rewrite (Hq' _ _ Ht). split; [|done]. intros k Hk. by apply elem_of_nil in Hk.
      * apply list_lookup_singleton_Some in Ht as [_ <-]. split; [|done]. intros k Hk. left. by apply Hp.
Qed.
Lemma calm_run s ops : calm s → sequential s ops → calm (run s ops).
Proof.
  unfold run. revert s. induction ops as [|o ops IH]; intros s Hc; cbn; [done|]. intros [Hq Hs]. apply IH; [by apply calm_step|done].
Qed.
Lemma calm_init c : calm (init c).
Proof. split_and!; cbn; [by exists 0|done|]. intros m Hm. by apply elem_of_nil in Hm. Qed.
Lemma sequential_safe c ops m : sequential (init c) ops → ¬ happened (EvDrop m DWindow) (run (init c) ops).
Proof. intros H. destruct (calm_run _ _ (calm_init c) H) as (_ & _ & H3). apply H3. Qed.
