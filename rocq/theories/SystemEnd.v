(** Actors on executors: rest and termination. *)
From stdpp Require Import base numbers list list_numbers.
From Coq Require Import Lia.
From Verif Require Import Prio Heap State Model HeapProofs Frame Lib InvBusy InvCount Effects InvMsg InvOne InvOne2 InvBc Mono Events Spec Bridge FinishSpec FinishProofs
  FinalC FinalG FinalI ClaimsA ClaimsB ClaimsE ClaimsN System SystemSpec SystemProofs SystemInv.

(** ** Where nothing more can happen *)
Lemma rest_quiet y : (∀ l, ¬ inner y l) → quiet (ch y).
Proof.
  intros H t p Ht. destruct p as [|u rest]; [done|]. exfalso. apply (H (SCall (Step t))). left. exists t, u. split; [done|]. by exists rest.
Qed.
Lemma flow_found r b s : 0 < Σ (e_fl r b) (log s) → ∃ c, flow_of r (log s) = Some c.
Proof.
  unfold flow_of. induction (log s) as [|e l IH]; cbn [List.find sum_list_with]; [lia|]. intros H.
  destruct e; try (apply IH; cbn in H; lia). destruct (Nat.eqb_spec r0 r) as [->|Hn]; [by eexists|]. apply IH. cbn in H. unfold isn in H.
  rewrite (proj2 (Nat.eqb_neq r0 r) Hn) in H. destruct (Bool.eqb _ _); lia.
Qed.
Lemma flow_in r b l : flow_of r l = Some b → 0 < Σ (e_fl r b) l.
Proof.
  unfold flow_of. induction l as [|e l IH]; cbn [List.find sum_list_with]; [done|].
  destruct e; try (intros H; apply IH in H; lia). destruct (Nat.eqb_spec r0 r) as [->|Hn]; [|intros H; apply IH in H; lia].
  intros [= ->]. cbn. rewrite Bool.eqb_reflx. unfold isn. rewrite Nat.eqb_refl. lia.
Qed.
Lemma rest_tasks y : sys_reachable y → (∀ l, ¬ inner y l) → ∀ i t, tk y !! i = Some t → t_st t = TDone ∨ ∃ r, t_st t = TAwait r ∧ idle (ch y) r.
Proof.
  intros Hy H i t Ht. destruct (sys_reach y Hy) as [Hrr [I1 _]]. pose proof (reachable_reach _ Hrr) as Hr. pose proof (rest_quiet y H) as Hq.
  assert (∀ v, task_step t v (ch y) = None) as HN.
  { intros v. destruct (task_step t v (ch y)) as [x|] eqn:E; [|done]. exfalso. apply (H (STask i v)). right. by exists i, v, t, x. }
  specialize (HN 0). specialize (I1 _ _ Ht). unfold task_step, tinv in *. destruct (t_st t) as [| |r| | |] eqn:Et; try done; [|by left].
  right. exists r. split; [done|]. destruct I1 as [_ (x & Hx & Hs & HF)]. rewrite Hx in HN. destruct (h_st x) as [| | |o| | | |] eqn:Es; try done.
  - pose proof (reach_busyR _ Hr r) as HB. rewrite (at_some _ _ _ _ Hx) in HB. unfold isrbusy in HB. rewrite Es in HB. rewrite quiet_msum in HB by done. done.
  - destruct (existsb _ _) eqn:Ew; [done|].
    assert (¬ woken (ch y) (h_wk x)) as Hw.
    { intros Hw. enough (existsb (Nat.eqb (h_wk x)) (wakes (ch y)) = true) by congruence. apply existsb_exists. exists (h_wk x). split; [by apply elem_of_list_In|apply Nat.eqb_refl]. }
    destruct (ones (ch y) !! o) as [[rx [w| | |]]|] eqn:Eo; [by exists x, o, rx, w|..].
    all: exfalso; apply Hw; eapply c31_woken; try done; intros (x' & o' & rx' & w' & H1 & H2 & H3); simplify_eq.
    all: rewrite Es in H2; injection H2 as <-; congruence.
  - destruct (HF eq_refl) as [b Hb]. unfold FLc in Hb. rewrite quiet_msum in Hb by done. destruct (flow_found r b (ch y)) as [c Hc]; [lia|]. rewrite Hc in HN. by destruct c.
Qed.
Lemma rest_settled y : sys_reachable y → (∀ l, ¬ inner y l) → settled y.
Proof.
  intros Hy H. destruct (sys_reach y Hy) as [Hrr _]. pose proof (rest_quiet y H) as Hq. split; [done|]. intros i t Ht.
  destruct (rest_tasks y Hy H i t Ht) as [?|(r & Hr & Hi)]; [by left|]. right. pose proof Hi as (h & o & rx & w & Hh & _). exists r, h.
  destruct (c15_quiet (ch y) r h Hrr Hq Hi Hh) as [H1 H2]. split_and!; try done.
  { intros Hc m. destruct (decide (0 < blocked m (ch y))) as [Hb|]; [|lia]. destruct (c14 (ch y) m Hrr Hb) as (n & Hn & Hl). rewrite H1 in Hl.
    destruct n; [done|cbn in Hl; lia]. }
  destruct (decide (0 < strong_addresses (ch y) + strong_futures (ch y))) as [?|Hz]; [done|]. exfalso. by apply (c25 (ch y) r Hrr Hq ltac:(lia)).
Qed.

(** ** The measure *)
Definition cont (s : state) (r : nat) : bool := 0 <? FLc r false s.
Definition gone (s : state) (r : nat) : bool := match hols s !! r with Some h => match h_st h with HGone => true | _ => false end | None => false end.
Definition tw (s : state) (t : task) : nat :=
  match t_st t with
  | TStart => 21 | TLoop => 19 | TAwait r => if gone s r then (if cont s r then 20 else 6) else 0 | TStop => 5 | TDrop => 4 | TDone => 0
  end.
Definition big_ (s : state) : nat := msum big s + Ac s.
Definition low_ (s : state) : nat := msum small s + 3 * Fc s + msum ex s + 20 * Mc s + HW s.
Definition low (y : sys) : nat := low_ (ch y) + Σ (tw (ch y)) (tk y).
Lemma tw_keep s o t : reach s → tinv s t → (∀ r, touched o = Some r → of1 t r = false) → tw (step s o) t = tw s t.
Proof.
  intros Hr Ht Ho. unfold tw, tinv, of1 in *. destruct (t_st t) as [| |r| | |]; try done. destruct Ht as [_ (x & Hx & Hs & _)].
  assert (touched o ≠ Some r) as Hto by (intros E; specialize (Ho _ E); by rewrite Nat.eqb_refl in Ho).
  assert (gone (step s o) r = gone s r) as ->.
  { unfold gone. destruct (hol_keep s o r x Hr Hx Hto) as (x' & -> & HK). rewrite Hx. destruct HK as [[-> _]|(-> & _ & H)]; [done|]. by destruct (h_st x'). }
  unfold cont. by rewrite (proj2 (step_FLc r false o s) Hto).
Qed.
Lemma sum_change {A} (f g : A → nat) l i x y : l !! i = Some x → (∀ j z, j ≠ i → l !! j = Some z → f z = g z) → Σ f (<[i:=y]> l) + g x = Σ g l + f y.
Proof.
  revert i. induction l as [|a l IH]; intros i Hi H; [done|]. destruct i as [|i].
  - injection Hi as ->. change (<[0:=y]> (x :: l)) with (y :: l). cbn [sum_list_with]. rewrite (sum_ext f g l); [lia|].
    intros z [j Hj]%elem_of_list_lookup. by apply (H (S j)).
  - assert (Σ f (<[i:=y]> l) + g x = Σ g l + f y) as HI. { apply IH; [done|]. intros j z Hj Hz. apply (H (S j)); [lia|done]. }
    change (<[S i:=y]> (a :: l)) with (a :: <[i:=y]> l). cbn [sum_list_with]. rewrite (H 0 a) by done. lia.
Qed.
Lemma sum_same {A} (f g : A → nat) l : (∀ j z, l !! j = Some z → f z = g z) → Σ f l = Σ g l.
Proof. intros H. apply sum_ext. intros z [j Hj]%elem_of_list_lookup. by eapply H. Qed.

(** Freed: nothing can happen. *)
Lemma freed_rest y : SInv y → quiet (ch y) → (∀ r h, hols (ch y) !! r = Some h → h_st h = HGone) → ∀ l, ¬ inner y l.
Proof.
  intros [I1 _] Hq Hg l [(t & u & _ & [rest Ht])|(i & v & t & x & _ & Ht & E)]; [by apply Hq in Ht|].
  assert (t_st t ≠ TDone) as Hd by (intros E1; unfold task_step in E; by rewrite E1 in E).
  destruct (tinv_mb _ _ (I1 _ _ Ht) Hd) as (h & Hh & Hs). rewrite (Hg _ _ Hh) in Hs. done.
Qed.
Lemma unowned s : chan_owned s = false → (∀ r h, hols s !! r = Some h → h_st h = HGone) ∧ quiet s.
Proof.
  intros H. unfold chan_owned in H. apply orb_false_elim in H as [[[_ H]%orb_false_elim _]%orb_false_elim H2]. split.
  - intros r h Hh. destruct (h_st h) eqn:E; try done; exfalso;
      (enough (existsb (λ h : holder, match h_st h with HGone => false | _ => true end) (hols s) = true) by congruence); apply existsb_exists;
      exists h; (split; [apply elem_of_list_In; by eapply elem_of_list_lookup_2|by rewrite E]).
  - intros t p Ht. destruct p as [|u rest]; [done|]. exfalso.
    enough (existsb (λ p : list micro, match p with [] => false | _ => true end) (thr s) = true) by congruence. apply existsb_exists.
    exists (u :: rest). split; [apply elem_of_list_In; by eapply elem_of_list_lookup_2|done].
Qed.

(** ** Steps of calls in progress *)
Lemma thread_dec y t u : sys_reachable y → next_action (ch y) t u → let z := sys_step y (SCall (Step t)) in
  (∀ l, ¬ inner z l) ∨ big_ (ch z) < big_ (ch y) ∨ big_ (ch z) = big_ (ch y) ∧ low z < low y.
Proof.
  intros Hy [rest Ht]. destruct (sys_reach y Hy) as [Hrr I]. pose proof (reachable_reach _ Hrr) as Hr.
  cbn [sys_step foreign]. cbv zeta. pose proof (sys_inv y (SCall (Step t)) Hr I) as I'. cbn [sys_step foreign] in I'.
  assert (Σ (tw (step (ch y) (Step t))) (tk y) = Σ (tw (ch y)) (tk y)) as HT.
  { apply sum_same. intros j x Hj. apply tw_keep; [done|by eapply (proj1 I)|done]. }
  set (s := ch y) in *. unfold low in *. cbn [ch tk] in *. fold s in HT |- *. rewrite HT. clear HT.
  unfold step, do_step in *. rewrite Ht in *. destruct (exec u s) as [s1 new] eqn:E. pose proof (exec_thr u s) as Hthr. rewrite E in Hthr. cbn [fst] in Hthr.
  pose proof (msum_step big s t u rest new s1 Ht Hthr) as HM1. pose proof (msum_step small s t u rest new s1 Ht Hthr) as HM2.
  pose proof (msum_step ex s t u rest new s1 Ht Hthr) as HM3.
  pose proof (exec_dec s t u rest s1 new Hr Ht E) as HD. pose proof (exec_dec2 s t u rest s1 new Hr Ht E) as HD2.
  set (x := set_thr (<[t:=new ++ rest]> (thr s1)) s1) in *.
  change (cellsA s1) with (cellsA x) in *. change (ones s1) with (ones x) in *. change (Mc s1) with (Mc x) in HD2. change (HW s1) with (HW x) in HD2.
  unfold collect in *. destruct (chan_owned x) eqn:Eo.
  - right. unfold big_, low_. destruct HD as [HD|[HD1 HD1']]; [left; lia|]. destruct HD2 as [HD2|HD2]; [left; lia|].
    destruct (decide (msum big x + Ac x = msum big s + Ac s)); [right|left]; lia.
  - left. destruct (unowned x Eo) as [Hg Hq]. apply freed_rest; [done|..]; cbn [ch].
    + intros k p Hk. autorewrite with fr_thr in Hk. by eapply Hq.
    + intros r h Hh. autorewrite with fr_hols in Hh. by eapply Hg.
Qed.

(** ** Steps of tasks *)
Lemma HW_insert os hs r h h' : hs !! r = Some h → Σ (hw os) (<[r:=h']> hs) + hw os h = Σ (hw os) hs + hw os h'.
Proof. intros H. by apply sum_insert. Qed.
Lemma tw_gone s r m : tw s (TK m (TAwait r)) ≤ 20.
Proof. unfold tw. cbn [t_st]. destruct (gone s r), (cont s r); lia. Qed.
Lemma tw_live s r m h : hols s !! r = Some h → h_st h ≠ HGone → tw s (TK m (TAwait r)) = 0.
Proof. intros H1 H2. unfold tw, gone. cbn. rewrite H1. by destruct (h_st h). Qed.
Ltac lw := unfold big_, low_, Mc, HW; rewrite ?msum_call; unfold msum; prj; unfold rx_drop; cbn [sum_list_with app big small ex].
Lemma task_low s t v s' st : reachable s → tinv s t → task_step t v s = Some (s', st) →
  ∃ x, (s' = s ∧ x = s ∨ s' = collect x) ∧ big_ x = big_ s ∧ low_ x + tw s' (TK (t_mb t) st) < low_ s + tw s t.
Proof.
  intros Hrr Ht E. pose proof (reachable_reach _ Hrr) as Hr. destruct t as [m ts]. cbn [t_mb] in *. unfold task_step, tinv in *. cbn [t_st t_mb] in *.
  destruct ts as [| |r| | |].
  - injection E as <- <-. exists s. split; [by left|]. split; [done|]. destruct (v =? 0); cbn; lia.
  - injection E as <- <-. exists (api (ANext m) s). split; [by right|].
    destruct Ht as (x & Hx & Hs). destruct (bq_some s m x Hr Hx ltac:(by rewrite Hs)) as [q Hq].
    destruct (next_new s m Hr ltac:(by exists x)) as [b Hb]. rewrite (tw_live _ _ _ _ Hb) by done.
    cbn [api]. rewrite Hx, Hs. cbn [is_mailbox]. rewrite Hq. unfold big_, low_, Mc, HW, msum. prj. split; [done|].
    pose proof (sum_insert qlen _ _ _ (BQ (S (bq_refs q)) (bq_heap q)) Hq) as H1. unfold qlen in *. cbn in H1. rewrite sum_snoc. unfold hw at 2. cbn. lia.
  - destruct Ht as [_ (x & Hx & Hs & HF)]. rewrite Hx in E. assert (r < length (hols s)) as Hl by by eapply lookup_lt_Some.
    destruct x as [b hs k w]. cbn [h_st h_wk] in *.
    assert (∀ o, s' = step s o → reachable s') as Hsr.
    { intros o ->. destruct Hrr as (c & ops & ->). exists c, (ops ++ [o]). by rewrite run_snoc. }
    destruct hs as [| | |o|a|a|a|]; try done.
    + injection E as <- <-. exists (api (APollRecv r) s). split; [by right|]. rewrite (tw_live _ r m (HO b HRecvBusy k (nwk s))); [|unfold step; rewrite collect_hols; cbn [api]; rewrite Hx; prj; by rewrite list_lookup_insert|done].
      cbn [api]. rewrite Hx. pose proof (HW_insert (ones s) _ _ _ (HO b HRecvBusy k (nwk s)) Hx) as H. unfold hw in H at 2 4. cbn in H. lw. lia.
    + destruct (existsb _ _) eqn:Ew; [|done]. assert (emp (ones s) o = false) as He.
      { apply existsb_exists in Ew as (w' & Hw & <-%Nat.eqb_eq). assert (¬ idle s r) as Hi by (eapply c52_receiver; [done..|by apply elem_of_list_In]).
        unfold emp. destruct (ones s !! o) as [[rx []]|] eqn:Eo; try done. destruct Hi. by eexists _, o, _, _. }
      injection E as <- <-. exists (api (APollRecv r) s). split; [by right|]. rewrite (tw_live _ r m (HO b HRecvBusy k (nwk s))); [|unfold step; rewrite collect_hols; cbn [api]; rewrite Hx; prj; by rewrite list_lookup_insert|done].
      cbn [api]. rewrite Hx. pose proof (HW_insert (ones s) _ _ _ (HO b HRecvBusy k (nwk s)) Hx) as H. unfold hw in H at 2 4. cbn in H. lw. rewrite He in H. lia.
    + injection E as <- <-. exists (api (ADispatch r) s). split; [by right|]. rewrite (tw_live _ r m (HO b (HDispNew a) k w)); [|unfold step; rewrite collect_hols; cbn [api]; rewrite Hx; prj; by rewrite list_lookup_insert|done].
      cbn [api]. rewrite Hx. pose proof (HW_insert (ones s) _ _ _ (HO b (HDispNew a) k w) Hx) as H. unfold hw in H at 2 4. cbn in H. lw. destruct (stopping a); lia.
    + destruct (stopping a) eqn:Es.
      * injection E as <- <-. exists (api (ARun r) s). split; [by right|].
        assert (api (ARun r) s = call (rx_drop b ++ [UFlow r true]) (set_hols (<[r := HO b HGone k w]> (hols s)) s)) as Ea by (cbn [api]; rewrite Hx; by destruct a as [|[]|]).
        assert (tw (step s (ARun r)) (TK m (TAwait r)) ≤ 6) as H6.
        { specialize (Hsr _ eq_refl). pose proof (flow_facts (step s (ARun r)) r true Hsr) as HFl. cbn [negb] in HFl.
          assert (0 < FLc r true (step s (ARun r))) as H0.
          { unfold step. rewrite collect_FLc, Ea. unfold FLc. rewrite msum_call. cbn. unfold isn. rewrite Nat.eqb_refl. lia. }
          destruct (HFl H0) as [H1 _]. unfold tw, cont. cbn [t_st]. rewrite H1. destruct (gone _ _); cbn; lia. }
        rewrite Ea. pose proof (HW_insert (ones s) _ _ _ (HO b HGone k w) Hx) as H. unfold hw in H at 2 4. cbn in H. lw. rewrite Es in H.
        rewrite (tw_live s r m _ Hx) by done. lia.
      * injection E as <- <-. exists (api (ARun r) s). split; [by right|]. rewrite (tw_live _ r m (HO b (HRun a) true w));
          [|unfold step; rewrite collect_hols; cbn [api]; rewrite Hx; destruct a as [|[]|]; try done; prj; by rewrite list_lookup_insert|done].
        cbn [api]. rewrite Hx. pose proof (HW_insert (ones s) _ _ _ (HO b (HRun a) true w) Hx) as H. unfold hw in H at 2 4. cbn in H. rewrite Es in H.
        destruct a as [|[]|]; try done; lw; lia.
    + injection E as <- <-. exists (api (AFinish r v) s). split; [by right|]. pose proof (tw_gone (step s (AFinish r v)) r m) as H6.
      cbn [api]. rewrite Hx. pose proof (HW_insert (ones s) _ _ _ (HO b HGone k w) Hx) as H. unfold hw in H at 2 4. cbn in H.
      cbn [api] in H6. destruct a as [|[]|]; lw; lia.
    + destruct (flow_of r (log s)) as [c|] eqn:Ec; [|done]. pose proof (flow_in r c _ Ec) as HFl. assert (0 < FLc r c s) as Hc by (unfold FLc; lia).
      exists s. destruct (flow_facts s r c Hrr Hc) as [H1 _]. assert (s' = s ∧ st = if c then TStop else TLoop) as [-> ->] by (destruct c; by injection E as <- <-).
      split; [by left|]. split; [done|]. unfold tw at 2. unfold gone. cbn [t_st]. rewrite Hx. cbn [h_st]. unfold cont.
      destruct c; cbn [negb] in H1; [rewrite H1; cbn; lia|]. destruct (Nat.ltb_spec 0 (FLc r false s)); [cbn; lia|lia].
  - injection E as <- <-. exists s. split; [by left|]. split; [done|]. cbn. lia.
  - injection E as <- <-. exists (api (ADropHol m) s). split; [by right|]. destruct Ht as ([b hs k w] & Hx & Hs). cbn in Hs. subst hs.
    cbn [api]. rewrite Hx. cbn [hol_drop h_st h_bq h_run h_wk]. pose proof (HW_insert (ones s) _ _ _ (HO b HGone k w) Hx) as H. unfold hw in H at 2 4. cbn in H. lw. unfold tw. cbn [t_st]. lia.
  - done.
Qed.

Lemma task_dec y i v t x : sys_reachable y → tk y !! i = Some t → task_step t v (ch y) = Some x → let z := sys_step y (STask i v) in
  (∀ l, ¬ inner z l) ∨ big_ (ch z) < big_ (ch y) ∨ big_ (ch z) = big_ (ch y) ∧ low z < low y.
Proof.
  intros Hy Ht E. destruct (sys_reach y Hy) as [Hrr I]. pose proof (reachable_reach _ Hrr) as Hr. destruct x as [s' st].
  pose proof (sys_inv y (STask i v) Hr I) as I'. cbn [sys_step] in *. rewrite Ht, E in *. cbv zeta.
  pose proof (proj1 I _ _ Ht) as HT. assert (t_st t ≠ TDone) as Hd by (intros E1; unfold task_step in E; by rewrite E1 in E).
  assert (∀ j t', j ≠ i → tk y !! j = Some t' → tw s' t' = tw (ch y) t') as HW'.
  { intros j t' Hj Hj'. destruct (proj2 I i j t t' ltac:(done) Ht Hj') as [A1 A2]. pose proof (proj1 I _ _ Hj') as HT'.
    assert (∀ o, (∀ r, touched o = Some r → t_st t = TAwait r ∨ r = t_mb t) → tw (step (ch y) o) t' = tw (ch y) t') as HS.
    { intros o Ho. apply tw_keep; [done..|]. intros r Hor. unfold of1.
      assert (t_st t' ≠ TDone → (t_mb t' =? r) = false) as Hmb.
      { intros Hd'. apply Nat.eqb_neq. destruct (Ho r Hor) as [E1| ->]; [by apply (apart_mb _ t' t r HT' HT E1 Hd')|]. intros E1. by apply A1. }
      destruct (t_st t') as [| |q| | |] eqn:E2; try (by apply Hmb); [|done]. rewrite Hmb by done. rewrite orb_false_r. apply Nat.eqb_neq. intros ->.
      destruct (Ho r Hor) as [E1| ->]; [by apply (A2 r E1)|]. by apply (apart_mb _ t t' (t_mb t) HT HT' E2 Hd). }
    destruct (task_cases _ _ _ _ _ E) as [(-> & _)|[(_ & -> & _)|[(r & h & o & E1 & Hh & Ho & -> & _)|(_ & -> & _)]]]; [done|..].
    - by apply HS.
    - apply HS. intros q. rewrite (await_touch _ _ _ _ Ho). intros [= <-]. by left.
    - apply HS. intros q [= <-]. by right. }
  pose proof (sum_change (tw s') (tw (ch y)) (tk y) i t (TK (t_mb t) st) Ht HW') as HSum.
  destruct (task_low (ch y) t v s' st Hrr HT E) as (x & Hx & HB & HL). unfold low. cbn [ch tk] in *.
  destruct Hx as [[-> ->]|Hx]; [right; right; split; [done|lia]|]. unfold collect in Hx. destruct (chan_owned x) eqn:Eo; subst s'.
  - right; right. split; [done|lia].
  - left. destruct (unowned x Eo) as [Hg Hq]. apply freed_rest; [done|..]; cbn [ch].
    + intros k p Hk. autorewrite with fr_thr in Hk. by eapply Hq.
    + intros r h Hh. autorewrite with fr_hols in Hh. by eapply Hg.
Qed.

(** ** Termination *)
Lemma sys_reachable_step y l : sys_reachable y → sys_reachable (sys_step y l).
Proof. intros (c & k & ->). exists c, (k ++ [l]). by rewrite sys_run_snoc. Qed.
Lemma leads_all (R P : sys → Prop) : (∀ y, R y → sys_reachable y) → (∀ y l, R y → inner y l → R (sys_step y l)) → (∀ y, R y → (∀ l, ¬ inner y l) → P y) →
  ∀ y, R y → leads P y.
Proof.
  intros H1 H2 H3 y.
  enough (∀ G L y, R y → big_ (ch y) = G → low y = L → leads P y) as H by (intros; by eapply H). clear y.
  intros G. induction (lt_wf G) as [G _ IHG]. intros L. induction (lt_wf L) as [L _ IHL]. intros y Hy HG HL. constructor; [|by apply H3].
  intros l Hl. pose proof (H2 y l Hy Hl) as Hz.
  assert ((∀ k, ¬ inner (sys_step y l) k) ∨ big_ (ch (sys_step y l)) < big_ (ch y) ∨ big_ (ch (sys_step y l)) = big_ (ch y) ∧ low (sys_step y l) < low y) as HD.
  { destruct Hl as [(t & u & -> & Ht)|(i & v & t & x & -> & Ht & E)]; [eapply thread_dec|eapply task_dec]; eauto. }
  destruct HD as [HD|[HD|[HD HD']]].
  - constructor; [|by apply H3]. intros k Hk. by destruct (HD k).
  - eapply (IHG (big_ (ch (sys_step y l)))); [lia|done..].
  - eapply (IHL (low (sys_step y l))); [lia|done|by rewrite HD|done].
Qed.
Lemma actors_settle y : sys_reachable y → leads settled y.
Proof. apply leads_all; [done|intros; by apply sys_reachable_step|]. apply rest_settled. Qed.
