(** Proofs about the channel lock. *)
From stdpp Require Import base numbers list list_numbers.
From Coq Require Import Lia.
From Verif Require Import Reent ReentSpec.

Notation Σ := sum_list_with.
Definition g_cnt (u : rmicro) : nat :=
  match u with RTxDec => 1 | RSendChk m b | RSend m b => strongs m + (if b then 1 else 0) | _ => 0 end.
(** ** The strong count *)
Definition InvC (s : rstate) : Prop :=
  r_txc s = r_ext s + Σ strongs (r_queue s) + Σ strongs (r_blocked s) + Σ (Σ g_cnt) (r_thr s).
Lemma sum_app {A} (g : A → nat) k l : Σ g (k ++ l) = Σ g k + Σ g l.
Proof. induction k; cbn; lia. Qed.
Lemma sum_ins {A} (g : A → nat) l i x y : l !! i = Some x → Σ g (<[i:=y]> l) + g x = Σ g l + g y.
Proof.
  revert i. induction l as [|z l IH]; intros [|i] H; simpl in *; try done; [injection H as ->; lia|]. specialize (IH _ H). lia.
Qed.
Lemma cnt_drop m : Σ g_cnt (drop_msg m) = strongs m.
Proof. unfold drop_msg. induction (strongs m); cbn in *; lia. Qed.
Lemma cnt_drops l : Σ g_cnt (concat (drop_msg <$> l)) = Σ strongs l.
Proof. induction l as [|m l IH]; [done|]. cbn. rewrite sum_app, cnt_drop. cbn in IH. lia. Qed.
Lemma cnt_tx b : Σ g_cnt (drop_tx b) = if b then 1 else 0.
Proof. by destruct b. Qed.
Lemma can_inv s t : can_step s t = true → ∃ u rest, r_thr s !! t = Some (u :: rest) ∧ (needs_lock u = true → r_lock s = None).
Proof.
  unfold can_step. destruct (r_thr s !! t) as [[|u rest]|]; try done. intros H. exists u, rest. split; [done|]. intros E. rewrite E in H. by destruct (r_lock s).
Qed.
Lemma rstep_step s t u rest s1 new : can_step s t = true → r_thr s !! t = Some (u :: rest) → rexec t u s = (s1, new) →
  rstep s (RStep t) = set_rthr (<[t := new ++ rest]> (r_thr s)) s1.
Proof. intros Hc Ht E. destruct s. cbn [rstep]. rewrite Hc. cbn in Ht. rewrite Ht, E. done. Qed.
Lemma invC_step s o : InvC s → InvC (rstep s o).
Proof.
  intros I. destruct o.
  - destruct (can_step s t) eqn:Hc; [|destruct s; cbn [rstep]; by rewrite Hc].
    destruct (can_inv _ _ Hc) as (u & rest & Ht & Hl). destruct (rexec t u s) as [s1 new] eqn:E. rewrite (rstep_step _ _ _ _ _ _ Hc Ht E).
    pose proof (sum_ins (Σ g_cnt) _ _ _ (new ++ rest) Ht) as HS. rewrite sum_app in HS.
    change (Σ g_cnt (u :: rest)) with (g_cnt u + Σ g_cnt rest) in HS.
    unfold InvC in *. cbn [set_rthr r_lock r_cap r_txc r_rxc r_ext r_mbs r_queue r_blocked r_thr].
    revert HS. generalize (Σ (Σ g_cnt) (<[t:=new ++ rest]> (r_thr s))). intros N HS. destruct s as [k c tx rx e mb q bl th]. cbn in *.
    destruct u; cbn in E.
    + injection E as <- <-. cbn. destruct (tx - 1 =? 0); cbn in HS; lia.
    + injection E as <- <-. cbn in *. lia.
    + injection E as <- <-. cbn. destruct (rx - 1 =? 0); cbn in HS; lia.
    + injection E as <- <-. cbn. rewrite !sum_app, !cnt_drops in HS. cbn in HS. lia.
    + injection E as <- <-. cbn in *. lia.
    + destruct (_ || _); injection E as <- <-; cbn in *; rewrite ?sum_app, ?cnt_drop, ?cnt_tx in HS; lia.
    + destruct (r_full _); injection E as <- <-; cbn; rewrite ?sum_app, ?cnt_tx in *; cbn in *; lia.
    + destruct q as [|m q]; [injection E as <- <-; cbn in *; lia|].
      destruct bl as [|m' bl]; injection E as <- <-; cbn in *; destruct keep; cbn in *; rewrite ?sum_app, ?cnt_drop in *; cbn in *; lia.
  - unfold InvC in *. destruct s as [k c tx rx e mb q bl th]. cbn in *. destruct (e =? 0); cbn; lia.
  - unfold InvC in *. destruct s as [k c tx rx e mb q bl th]. cbn in *. destruct (tx =? 0); cbn; lia.
  - unfold InvC in *. destruct s as [k c tx rx e mb q bl th]. cbn in *. destruct (Nat.eqb_spec e 0); cbn; rewrite ?sum_app; cbn; lia.
  - unfold InvC in *. destruct s as [k c tx rx e mb q bl th]. cbn in *. destruct (_ && _); cbn; rewrite ?sum_app; cbn; lia.
  - unfold InvC in *. destruct s as [k c tx rx e mb q bl th]. cbn in *. destruct (mb =? 0); cbn; lia.
  - unfold InvC in *. destruct s as [k c tx rx e mb q bl th]. cbn in *. destruct (mb =? 0); cbn; rewrite ?sum_app; cbn; lia.
  - unfold InvC in *. destruct s as [k c tx rx e mb q bl th]. cbn in *. destruct (mb =? 0); cbn; rewrite ?sum_app; cbn; lia.
Qed.
(** ** The holder of the lock *)
Definition holder_prog (p : list rmicro) : Prop := ∃ n rest, p = replicate n RTxDec ++ RUnlock :: rest ∧ RUnlock ∉ rest.
Definition InvL (s : rstate) : Prop :=
  (∀ t p, r_thr s !! t = Some p → r_lock s ≠ Some t → RUnlock ∉ p) ∧
  (∀ t, r_lock s = Some t → ∃ p, r_thr s !! t = Some p ∧ holder_prog p).
Lemma no_unlock_drop m : RUnlock ∉ drop_msg m.
Proof. intros H. apply elem_of_replicate in H as [? _]. done. Qed.
Lemma no_unlock_tx b : RUnlock ∉ drop_tx b.
Proof. destruct b; cbn; [intros H%elem_of_list_singleton; done|apply not_elem_of_nil]. Qed.
Lemma drops_replicate l : concat (drop_msg <$> l) = replicate (Σ strongs l) RTxDec.
Proof. induction l as [|m l IH]; [done|]. cbn. rewrite replicate_add. f_equal. apply IH. Qed.
Lemma invL_step s o : InvL s → (∀ t rest, r_lock s = Some t → r_thr s !! t = Some (RTxDec :: rest) → 1 < r_txc s) → InvL (rstep s o).
Proof.
  intros [I1 I2] Hx.
  assert (∀ p s', RUnlock ∉ p → r_thr s' = r_thr s ++ [p] → r_lock s' = r_lock s → InvL s') as Hcall.
  { intros p s' Hp Et El. split; rewrite El, Et.
    - intros t q Hq Hl. apply lookup_app_Some in Hq as [Hq|[_ Hq]]; [by eapply I1|]. by apply list_lookup_singleton_Some in Hq as [_ <-].
    - intros t Hl. destruct (I2 t Hl) as (q & Hq & Hh). exists q. split; [by apply lookup_app_l_Some|done]. }
  assert (∀ s', r_thr s' = r_thr s → r_lock s' = r_lock s → InvL s') as Hsame by (intros s' Et El; split; rewrite El, Et; done).
  destruct o.
  - destruct (can_step s t) eqn:Hc; [|destruct s; cbn [rstep]; by rewrite Hc].
    destruct (can_inv _ _ Hc) as (u & rest & Ht & Hl). destruct (rexec t u s) as [s1 new] eqn:E. rewrite (rstep_step _ _ _ _ _ _ Hc Ht E).
    pose proof (lookup_lt_Some _ _ _ Ht) as Hlt.
    (* an action that neither locks nor unlocks *)
    assert (r_lock s1 = r_lock s → u ≠ RUnlock → RUnlock ∉ new → (r_lock s = Some t → ∃ n, new = replicate n RTxDec) → InvL (set_rthr (<[t := new ++ rest]> (r_thr s)) s1)) as Hkeep.
    { intros El Hu Hnew Hh. split; cbn; rewrite El.
      - intros a p Ha Hla. destruct (decide (a = t)) as [->|Hn].
        + rewrite list_lookup_insert in Ha by done. injection Ha as <-. specialize (I1 _ _ Ht Hla).
          rewrite not_elem_of_cons in I1. intros [H|H]%elem_of_app; [done|by apply I1].
        + rewrite list_lookup_insert_ne in Ha by done. by eapply I1.
      - intros a Ha. destruct (I2 a Ha) as (p & Hp & Hhold). destruct (decide (a = t)) as [->|Hn].
        + exists (new ++ rest). split; [by apply list_lookup_insert|]. rewrite Ht in Hp. injection Hp as <-.
          destruct Hhold as ([|n] & rest' & Ep & Hr); cbn in Ep; [by injection Ep as -> ->|]. injection Ep as -> ->.
          destruct (Hh Ha) as [n' ->]. exists (n' + n), rest'. split; [|done]. by rewrite replicate_add, app_assoc.
        + exists p. split; [by rewrite list_lookup_insert_ne|done]. }
    assert (needs_lock u = true → r_lock s = Some t → ∃ n, new = replicate n RTxDec) as Hno by (intros H1 H2; specialize (Hl H1); congruence).
    destruct s as [k c tx rx e mb q bl th]. cbn [r_lock r_thr r_txc r_queue r_blocked r_ext] in *. destruct u; cbn in E.
    + injection E as <- <-. apply Hkeep; try done; [destruct (tx - 1 =? 0); [by intros ?%elem_of_list_singleton|apply not_elem_of_nil]|].
      intros Hk. exists 0. specialize (Hx _ _ Hk Ht). destruct (Nat.eqb_spec (tx - 1) 0); [lia|done].
    + injection E as <- <-. apply Hkeep; try done; [apply not_elem_of_nil|by apply Hno].
    + injection E as <- <-. apply Hkeep; try done; [destruct (rx - 1 =? 0); [by intros ?%elem_of_list_singleton|apply not_elem_of_nil]|].
      intros Hk. exfalso. destruct (I2 _ Hk) as (p & Hp & n & r & -> & Hr). rewrite Ht in Hp. destruct n; cbn in Hp; by injection Hp.
    + specialize (Hl eq_refl). subst k. injection E as <- <-. rewrite !drops_replicate. split; cbn.
      * intros a p Ha Hla. destruct (decide (a = t)) as [->|Hn]; [done|]. rewrite list_lookup_insert_ne in Ha by done. by eapply I1.
      * intros a [= <-]. eexists. split; [by apply list_lookup_insert|]. exists (Σ strongs q + Σ strongs bl), rest.
        split; [by rewrite replicate_add, <-!app_assoc|]. specialize (I1 _ _ Ht ltac:(done)). rewrite not_elem_of_cons in I1. by apply I1.
    + assert (k = Some t) as ->.
      { destruct (decide (k = Some t)) as [|Hn]; [done|]. exfalso. apply (I1 _ _ Ht Hn). by left. }
      injection E as <- <-. destruct (I2 t eq_refl) as (p & Hp & n & r & -> & Hr). rewrite Ht in Hp. destruct n; cbn in Hp; [|by injection Hp]. injection Hp as ->.
      split; cbn; [|done]. intros a p Ha _. destruct (decide (a = t)) as [->|Hn]; [rewrite list_lookup_insert in Ha by done; by injection Ha as <-|].
      rewrite list_lookup_insert_ne in Ha by done. eapply I1; [done|congruence].
    + assert (k = Some t → False) as Hk.
      { intros ->. destruct (I2 t eq_refl) as (p & Hp & n & r & -> & Hr). rewrite Ht in Hp. destruct n; cbn in Hp; by injection Hp. }
      destruct (_ || _); injection E as <- <-; apply Hkeep; try done.
      * intros [H|H]%elem_of_app; [by eapply no_unlock_drop|by eapply no_unlock_tx].
      * by intros ?%elem_of_list_singleton.
    + destruct (r_full _); injection E as <- <-; apply Hkeep; try done; try apply no_unlock_tx; by apply Hno.
    + destruct q as [|m q]; [injection E as <- <-; apply Hkeep; try done; [apply not_elem_of_nil|by apply Hno]|].
      destruct bl as [|m' bl]; injection E as <- <-; apply Hkeep; try done; try (destruct keep; [apply not_elem_of_nil|apply no_unlock_drop]); by apply Hno.
  - destruct s as [k c tx rx e mb q bl th]. cbn. destruct (e =? 0); by apply Hsame.
  - destruct s as [k c tx rx e mb q bl th]. cbn. destruct (tx =? 0); by apply Hsame.
  - destruct s as [k c tx rx e mb q bl th]. cbn. destruct (e =? 0); [by apply Hsame|]. by eapply Hcall; [|done..]; intros ?%elem_of_list_singleton.
  - destruct s as [k c tx rx e mb q bl th]. cbn. destruct (_ && _); [by apply Hsame|]. by eapply Hcall; [|done..]; intros ?%elem_of_list_singleton.
  - destruct s as [k c tx rx e mb q bl th]. cbn. destruct (mb =? 0); by apply Hsame.
  - destruct s as [k c tx rx e mb q bl th]. cbn. destruct (mb =? 0); [by apply Hsame|]. by eapply Hcall; [|done..]; intros ?%elem_of_list_singleton.
  - destruct s as [k c tx rx e mb q bl th]. cbn. destruct (mb =? 0); [by apply Hsame|]. by eapply Hcall; [|done..]; intros ?%elem_of_list_singleton.
Qed.

(** ** Progress *)
Definition w_act (u : rmicro) : nat :=
  match u with
  | RUnlock | RTxShutdown | RRecv _ => 1
  | RTxDec | RRxShutdown => 2
  | RRxDec => 3
  | RSendChk m b => 2 * strongs m + (if b then 2 else 0) + 2
  | RSend m b => 2 * strongs m + (if b then 2 else 0) + 1
  end.
Definition work (s : rstate) : nat := 2 * Σ strongs (r_queue s) + 2 * Σ strongs (r_blocked s) + Σ (Σ w_act) (r_thr s).
Lemma w_drop m : Σ w_act (drop_msg m) = 2 * strongs m.
Proof. unfold drop_msg. induction (strongs m); cbn in *; lia. Qed.
Lemma w_drops l : Σ w_act (concat (drop_msg <$> l)) = 2 * Σ strongs l.
Proof. induction l as [|m l IH]; [done|]. cbn [fmap list_fmap concat sum_list_with]. rewrite sum_app, w_drop. lia. Qed.
Lemma w_tx b : Σ w_act (drop_tx b) = if b then 2 else 0.
Proof. by destruct b. Qed.
Lemma work_step s t : can_step s t = true → work (rstep s (RStep t)) < work s.
Proof.
  intros Hc. destruct (can_inv _ _ Hc) as (u & rest & Ht & Hl). destruct (rexec t u s) as [s1 new] eqn:E. rewrite (rstep_step _ _ _ _ _ _ Hc Ht E).
  pose proof (sum_ins (Σ w_act) _ _ _ (new ++ rest) Ht) as HS. rewrite sum_app in HS.
  change (Σ w_act (u :: rest)) with (w_act u + Σ w_act rest) in HS.
  unfold work in *. cbn [set_rthr r_lock r_cap r_txc r_rxc r_ext r_mbs r_queue r_blocked r_thr].
  revert HS. generalize (Σ (Σ w_act) (<[t:=new ++ rest]> (r_thr s))). intros N HS. destruct s as [k c tx rx e mb q bl th]. cbn in *.
  destruct u; cbn in E.
  - injection E as <- <-. cbn. destruct (tx - 1 =? 0); cbn in HS; lia.
  - injection E as <- <-. cbn in *. lia.
  - injection E as <- <-. cbn. destruct (rx - 1 =? 0); cbn in HS; lia.
  - injection E as <- <-. cbn. rewrite !sum_app, !w_drops in HS. cbn in HS. lia.
  - injection E as <- <-. cbn in *. lia.
  - destruct (_ || _); injection E as <- <-; cbn in *; rewrite ?sum_app, ?w_drop, ?w_tx in HS; cbn in HS; destruct b; lia.
  - destruct (r_full _); injection E as <- <-; cbn; rewrite ?sum_app, ?w_tx in *; cbn in *; destruct b; lia.
  - destruct q as [|m q]; [injection E as <- <-; cbn in *; lia|].
    destruct bl as [|m' bl]; injection E as <- <-; cbn in *; destruct keep; cbn in *; rewrite ?sum_app, ?w_drop in *; cbn in *; lia.
Qed.
Lemma act_bound s ts : all_act s ts → length ts ≤ work s.
Proof.
  revert s. induction ts as [|t ts IH]; intros s; cbn [all_act length]; [lia|]. intros [Hc H]. apply IH in H. pose proof (work_step s t Hc). lia.
Qed.
Lemma invL_no_deadlock s : InvL s → no_deadlock s.
Proof.
  intros [I1 I2]. split_and!.
  - intros t (u & rest & Ht & Hu & Hl). destruct (I2 t Hl) as (p & Hp & n & r & -> & _). rewrite Ht in Hp. destruct n; cbn in Hp; injection Hp as -> ->; done.
  - intros Hf. destruct (r_lock s) as [t|] eqn:El.
    + destruct (I2 t eq_refl) as (p & Hp & n & r & -> & _). exists t. unfold can_step. rewrite Hp. by destruct n.
    + destruct (decide (Exists (λ p, p ≠ []) (r_thr s))) as [He|He].
      * apply Exists_exists in He as (p & Hin & Hne). apply elem_of_list_lookup in Hin as [t Ht]. exists t. unfold can_step. rewrite Ht, El.
        destruct p; [done|]. by rewrite orb_true_r.
      * exfalso. apply Hf. intros t p Ht. destruct p; [done|]. exfalso. apply He. apply Exists_exists. eexists. split; [by eapply elem_of_list_lookup_2|done].
  - exists (work s). apply act_bound.
Qed.
Lemma rrun_app s k l : rrun s (k ++ l) = rrun (rrun s k) l.
Proof. apply fold_left_app. Qed.
Lemma init_C c : InvC (rinit c). Proof. done. Qed.
Lemma init_L c : InvL (rinit c). Proof. by split; intros. Qed.
Lemma run_C c ops : InvC (rrun (rinit c) ops).
Proof. induction ops as [|o ops IH] using rev_ind; [apply init_C|]. rewrite rrun_app. by apply invC_step. Qed.

(** *** The program always owns a strong address *)
Lemma sum_look {A} (g : A → nat) l i x : l !! i = Some x → g x ≤ Σ g l.
Proof. revert i. induction l as [|y l IH]; intros [|i] H; cbn in *; try done; [injection H as ->; lia|]. specialize (IH _ H). lia. Qed.
Lemma ext_safe c ops : (∀ k, 0 < r_ext (rrun (rinit c) (take k ops))) → no_deadlock (rrun (rinit c) ops).
Proof.
  intros H. apply invL_no_deadlock. induction ops as [|o ops IH] using rev_ind; [apply init_L|]. rewrite rrun_app. cbn.
  assert (∀ k, 0 < r_ext (rrun (rinit c) (take k ops))) as H'.
  { intros k. destruct (decide (k ≤ length ops)) as [Hk|Hk]; [specialize (H k); by rewrite take_app_le in H|].
    specialize (H (length ops)). rewrite take_app_le, take_ge in H by lia. by rewrite take_ge by lia. }
  apply invL_step; [by apply IH|]. intros t rest Hl Ht. specialize (H' (length ops)). rewrite take_ge in H' by lia.
  pose proof (run_C c ops) as HC. unfold InvC in HC. pose proof (sum_look (Σ g_cnt) _ _ _ Ht) as HS. cbn in HS. lia.
Qed.
(** *** Messages own no strong address *)
Definition light (u : rmicro) : Prop := match u with RSendChk m _ | RSend m _ => strongs m = 0 | _ => True end.
Definition InvZ (s : rstate) : Prop :=
  Σ strongs (r_queue s) = 0 ∧ Σ strongs (r_blocked s) = 0 ∧ (∀ t p u, r_thr s !! t = Some p → u ∈ p → light u) ∧
  (∀ t, r_lock s = Some t → ∃ rest, r_thr s !! t = Some (RUnlock :: rest)).
Lemma drop_light m u : u ∈ drop_msg m → light u.
Proof. intros [-> _]%elem_of_replicate. done. Qed.
Lemma tx_light b u : u ∈ drop_tx b → light u.
Proof. destruct b; cbn; [by intros ->%elem_of_list_singleton|by intros ?%elem_of_nil]. Qed.
Lemma invZ_step s o : InvL s → InvZ s → (∀ m b, o = RDoSend m b → strongs m = 0) → InvZ (rstep s o).
Proof.
  intros [L1 L2] (Z1 & Z2 & Z3 & Z4) Ho.
  assert (∀ p s', (∀ u, u ∈ p → light u) → r_thr s' = r_thr s ++ [p] → r_lock s' = r_lock s → r_queue s' = r_queue s → r_blocked s' = r_blocked s → InvZ s') as Hcall.
  { intros p s' Hp Et El Eq Eb. unfold InvZ. rewrite El, Et, Eq, Eb. split_and!; try done.
    - intros t q u Hq Hu. apply lookup_app_Some in Hq as [Hq|[_ Hq]]; [by eapply Z3|]. apply list_lookup_singleton_Some in Hq as [_ <-]. by apply Hp.
    - intros t Hl. destruct (Z4 t Hl) as (q & Hq). exists q. by apply lookup_app_l_Some. }
  assert (∀ s', r_thr s' = r_thr s → r_lock s' = r_lock s → r_queue s' = r_queue s → r_blocked s' = r_blocked s → InvZ s') as Hsame
    by (intros s' Et El Eq Eb; unfold InvZ; by rewrite El, Et, Eq, Eb).
  destruct o.
  - destruct (can_step s t) eqn:Hc; [|destruct s; cbn [rstep]; by rewrite Hc].
    destruct (can_inv _ _ Hc) as (u & rest & Ht & Hl). destruct (rexec t u s) as [s1 new] eqn:E. rewrite (rstep_step _ _ _ _ _ _ Hc Ht E).
    pose proof (lookup_lt_Some _ _ _ Ht) as Hlt.
    assert (Σ strongs (r_queue s1) = 0 → Σ strongs (r_blocked s1) = 0 → (∀ u, u ∈ new → light u) →
      (∀ a, r_lock s1 = Some a → (a ≠ t ∧ r_lock s = Some a) ∨ (a = t ∧ ∃ r, new = RUnlock :: r)) → InvZ (set_rthr (<[t := new ++ rest]> (r_thr s)) s1)) as Hgo.
    { intros H1 H2 H3 H4. split_and!; try done; cbn.
      - intros a p v Ha Hv. destruct (decide (a = t)) as [->|Hn].
        + rewrite list_lookup_insert in Ha by done. injection Ha as <-. apply elem_of_app in Hv as [Hv|Hv]; [by apply H3|]. eapply Z3; [exact Ht|by right].
        + rewrite list_lookup_insert_ne in Ha by done. by eapply Z3.
      - intros a Ha. destruct (H4 a Ha) as [[Hn Hk]|[-> [r ->]]].
        + destruct (Z4 a Hk) as (r & Hr). exists r. by rewrite list_lookup_insert_ne.
        + exists (r ++ rest). by apply list_lookup_insert. }
    assert (u ≠ RUnlock → ∀ a, r_lock s = Some a → (a ≠ t ∧ r_lock s = Some a) ∨ (a = t ∧ ∃ r, new = RUnlock :: r)) as Hlk.
    { intros Hu a Ha. left. split; [|done]. intros ->. destruct (Z4 t Ha) as (r & Hr). rewrite Ht in Hr. by injection Hr. }
    assert (light u) as Hlu by (eapply Z3; [exact Ht|by left]).
    destruct s as [k c tx rx e mb q bl th]. cbn [r_lock r_thr r_txc r_queue r_blocked r_ext] in *. destruct u; cbn in E.
    + injection E as <- <-. apply Hgo; try done; [destruct (tx - 1 =? 0); [by intros ? ->%elem_of_list_singleton|by intros ? ?%elem_of_nil]|by apply Hlk].
    + injection E as <- <-. apply Hgo; try done; [by intros ? ?%elem_of_nil|by apply Hlk].
    + injection E as <- <-. apply Hgo; try done; [destruct (rx - 1 =? 0); [by intros ? ->%elem_of_list_singleton|by intros ? ?%elem_of_nil]|by apply Hlk].
    + injection E as <- <-. rewrite !drops_replicate, Z1, Z2 in *. apply Hgo; try done; [by intros ? ->%elem_of_list_singleton|].
      intros a [= <-]. right. split; [done|]. by exists [].
    + assert (k = Some t) as -> by (destruct (decide (k = Some t)) as [|Hn]; [done|]; exfalso; apply (L1 _ _ Ht Hn); by left).
      injection E as <- <-. apply Hgo; try done. by intros ? ?%elem_of_nil.
    + destruct (_ || _); injection E as <- <-; apply Hgo; try done; try (by apply Hlk).
      * intros v [H|H]%elem_of_app; [by eapply drop_light|by eapply tx_light].
      * by intros v ->%elem_of_list_singleton.
    + cbn in Hlu. destruct (r_full _); injection E as <- <-; apply Hgo; try done; cbn; rewrite ?sum_app; cbn; try lia; try (by apply Hlk); try apply tx_light.
    + destruct q as [|m q]; [injection E as <- <-; apply Hgo; try done; [by intros ? ?%elem_of_nil|by apply Hlk]|]. cbn in Z1.
      assert (∀ u, u ∈ (if keep then [] else drop_msg m) → light u) as Hnew by (destruct keep; [by intros ? ?%elem_of_nil|apply drop_light]).
      destruct bl as [|m' bl]; injection E as <- <-; cbn in Z2; apply Hgo; try done; cbn; rewrite ?sum_app; cbn; try lia; by apply Hlk.
  - destruct s as [k c tx rx e mb q bl th]. cbn. destruct (e =? 0); by apply Hsame.
  - destruct s as [k c tx rx e mb q bl th]. cbn. destruct (tx =? 0); by apply Hsame.
  - destruct s as [k c tx rx e mb q bl th]. cbn. destruct (e =? 0); [by apply Hsame|]. by eapply Hcall; [|done..]; intros ? ->%elem_of_list_singleton.
  - destruct s as [k c tx rx e mb q bl th]. cbn. destruct (_ && _); [by apply Hsame|]. eapply Hcall; [|done..]; intros ? ->%elem_of_list_singleton. by eapply Ho.
  - destruct s as [k c tx rx e mb q bl th]. cbn. destruct (mb =? 0); by apply Hsame.
  - destruct s as [k c tx rx e mb q bl th]. cbn. destruct (mb =? 0); [by apply Hsame|]. by eapply Hcall; [|done..]; intros ? ->%elem_of_list_singleton.
  - destruct s as [k c tx rx e mb q bl th]. cbn. destruct (mb =? 0); [by apply Hsame|]. by eapply Hcall; [|done..]; intros ? ->%elem_of_list_singleton.
Qed.
Lemma light_safe c ops : (∀ m b, RDoSend m b ∈ ops → strongs m = 0) → no_deadlock (rrun (rinit c) ops).
Proof.
  intros H. apply invL_no_deadlock.
  assert (InvL (rrun (rinit c) ops) ∧ InvZ (rrun (rinit c) ops)) as [? _]; [|done].
  induction ops as [|o ops IH] using rev_ind; [split; [apply init_L|by split_and!; cbn; intros]|]. rewrite rrun_app. cbn.
  destruct IH as [IL IZ]; [intros m b Hm; apply (H m b), elem_of_app; by left|]. split.
  - apply invL_step; [done|]. intros t rest Hl Ht. destruct IZ as (_ & _ & _ & Z4). destruct (Z4 t Hl) as (r & Hr). rewrite Ht in Hr. done.
  - apply invZ_step; try done. intros m b ->. apply (H m b), elem_of_app. right. by left.
Qed.
(** ** A thread that waits for itself waits forever *)
Definition is_unlock (u : rmicro) : nat := match u with RUnlock => 1 | _ => 0 end.
Definition holds (s : rstate) (t : nat) : nat := match r_lock s with Some a => if a =? t then 1 else 0 | None => 0 end.
Definition InvU (s : rstate) : Prop := ∀ t p, r_thr s !! t = Some p → Σ is_unlock p = holds s t.
Lemma u_drop m : Σ is_unlock (drop_msg m) = 0.
Proof. unfold drop_msg. by induction (strongs m). Qed.
Lemma u_drops l : Σ is_unlock (concat (drop_msg <$> l)) = 0.
Proof. induction l as [|m l IH]; [done|]. cbn [fmap list_fmap concat sum_list_with]. rewrite sum_app, u_drop. done. Qed.
Lemma u_tx b : Σ is_unlock (drop_tx b) = 0.
Proof. by destruct b. Qed.
Lemma invU_step s o : InvU s → (∀ t, r_lock s = Some t → t < length (r_thr s)) → InvU (rstep s o) ∧ (∀ t, r_lock (rstep s o) = Some t → t < length (r_thr (rstep s o))).
Proof.
  intros I HL.
  assert (∀ p s', Σ is_unlock p = 0 → r_thr s' = r_thr s ++ [p] → r_lock s' = r_lock s → InvU s' ∧ (∀ t, r_lock s' = Some t → t < length (r_thr s'))) as Hcall.
  { intros p s' Hp Et El. unfold InvU, holds. rewrite El, Et, app_length. split.
    - intros t q Hq. apply lookup_app_Some in Hq as [Hq|[Hge Hq]]; [by apply I|]. apply list_lookup_singleton_Some in Hq as [Hq <-]. rewrite Hp.
      destruct (r_lock s) as [a|]; [|done]. specialize (HL a eq_refl). destruct (Nat.eqb_spec a t); [lia|done].
    - intros t Ht. apply HL in Ht. lia. }
  assert (∀ s', r_thr s' = r_thr s → r_lock s' = r_lock s → InvU s' ∧ (∀ t, r_lock s' = Some t → t < length (r_thr s'))) as Hsame
    by (intros s' Et El; unfold InvU, holds; by rewrite El, Et).
  destruct o.
  - destruct (can_step s t) eqn:Hc; [|destruct s; cbn [rstep]; by rewrite Hc].
    destruct (can_inv _ _ Hc) as (u & rest & Ht & Hl). destruct (rexec t u s) as [s1 new] eqn:E. rewrite (rstep_step _ _ _ _ _ _ Hc Ht E).
    pose proof (lookup_lt_Some _ _ _ Ht) as Hlt. pose proof (I _ _ Ht) as It. change (Σ is_unlock (u :: rest)) with (is_unlock u + Σ is_unlock rest) in It.
    assert (r_lock s1 = r_lock s → is_unlock u = 0 → Σ is_unlock new = 0 → InvU (set_rthr (<[t := new ++ rest]> (r_thr s)) s1) ∧ (∀ a, r_lock s1 = Some a → a < length (<[t := new ++ rest]> (r_thr s)))) as Hgo.
    { intros H1 H2 H3. rewrite insert_length, H1. split; [|done]. intros a p Ha. cbn in Ha. unfold holds. cbn. rewrite H1. destruct (decide (a = t)) as [->|Hn].
      - rewrite list_lookup_insert in Ha by done. injection Ha as <-. rewrite sum_app. unfold holds in It. lia.
      - rewrite list_lookup_insert_ne in Ha by done. by apply I. }
    destruct s as [k c tx rx e mb q bl th]. cbn [r_lock r_thr r_txc r_queue r_blocked r_ext] in *. destruct u; cbn in E.
    + injection E as <- <-. apply Hgo; try done. by destruct (tx - 1 =? 0).
    + injection E as <- <-. by apply Hgo.
    + injection E as <- <-. apply Hgo; try done. by destruct (rx - 1 =? 0).
    + specialize (Hl eq_refl). subst k. injection E as <- <-. split; cbn; [|intros a [= <-]; by rewrite insert_length].
      intros a p Ha. unfold holds. cbn in *. destruct (Nat.eqb_spec t a) as [<-|Hn].
      * rewrite list_lookup_insert in Ha by done. injection Ha as <-. rewrite !sum_app, !u_drops. cbn. unfold holds in It. cbn in It. lia.
      * rewrite list_lookup_insert_ne in Ha by done. by apply I in Ha.
    + injection E as <- <-. unfold holds in It. cbn in It. destruct k as [a|]; [|lia]. destruct (Nat.eqb_spec a t) as [->|]; [|lia].
      split; [|done]. intros b p Hb. unfold holds. cbn in *. destruct (decide (b = t)) as [->|Hn].
      * rewrite list_lookup_insert in Hb by done. injection Hb as <-. lia.
      * rewrite list_lookup_insert_ne in Hb by done. apply I in Hb. rewrite Hb. unfold holds. cbn. destruct (Nat.eqb_spec t b); [lia|done].
    + destruct (_ || _); injection E as <- <-; apply Hgo; try done. by rewrite sum_app, u_drop, u_tx.
    + destruct (r_full _); injection E as <- <-; apply Hgo; try done; apply u_tx.
    + destruct q as [|m q]; [injection E as <- <-; by apply Hgo|].
      destruct bl as [|m' bl]; injection E as <- <-; apply Hgo; try done; destruct keep; try done; apply u_drop.
  - destruct s as [k c tx rx e mb q bl th]. cbn. destruct (e =? 0); by apply Hsame.
  - destruct s as [k c tx rx e mb q bl th]. cbn. destruct (tx =? 0); by apply Hsame.
  - destruct s as [k c tx rx e mb q bl th]. cbn. destruct (e =? 0); [by apply Hsame|]. by eapply Hcall; [|done..].
  - destruct s as [k c tx rx e mb q bl th]. cbn. destruct (_ && _); [by apply Hsame|]. by eapply Hcall; [|done..].
  - destruct s as [k c tx rx e mb q bl th]. cbn. destruct (mb =? 0); by apply Hsame.
  - destruct s as [k c tx rx e mb q bl th]. cbn. destruct (mb =? 0); [by apply Hsame|]. by eapply Hcall; [|done..].
  - destruct s as [k c tx rx e mb q bl th]. cbn. destruct (mb =? 0); [by apply Hsame|]. by eapply Hcall; [|done..].
Qed.
Lemma stuck_step s o t : InvU s → waits_for_itself s t → r_thr (rstep s o) !! t = r_thr s !! t ∧ r_lock (rstep s o) = Some t.
Proof.
  intros I (u & rest & Ht & Hu & Hl). pose proof (lookup_lt_Some _ _ _ Ht) as Hlt. destruct o.
  - destruct (can_step s t0) eqn:Hc; [|destruct s; cbn [rstep]; by rewrite Hc].
    destruct (can_inv _ _ Hc) as (v & r & Hv & Hlv). destruct (rexec t0 v s) as [s1 new] eqn:E. rewrite (rstep_step _ _ _ _ _ _ Hc Hv E).
    assert (t0 ≠ t) as Hn. { intros ->. rewrite Ht in Hv. injection Hv as <- <-. specialize (Hlv Hu). congruence. }
    cbn. rewrite list_lookup_insert_ne by done. split; [done|].
    assert (needs_lock v = false) as Hnl by (destruct (needs_lock v) eqn:?; [specialize (Hlv eq_refl); congruence|done]).
    pose proof (I _ _ Hv) as Iv. unfold holds in Iv. rewrite Hl in Iv. destruct (Nat.eqb_spec t t0); [congruence|].
    destruct s as [k c tx rx e mb q bl th]. cbn in *. destruct v; cbn in *; try done.
    + by injection E as <- <-.
    + by injection E as <- <-.
    + destruct (_ || _); by injection E as <- <-.
  - destruct s as [k c tx rx e mb q bl th]. cbn in *. by destruct (e =? 0).
  - destruct s as [k c tx rx e mb q bl th]. cbn in *. by destruct (tx =? 0).
  - destruct s as [k c tx rx e mb q bl th]. cbn in *. destruct (e =? 0); [done|]. cbn. rewrite lookup_app_l by done. done.
  - destruct s as [k c tx rx e mb q bl th]. cbn in *. destruct (_ && _); [done|]. cbn. rewrite lookup_app_l by done. done.
  - destruct s as [k c tx rx e mb q bl th]. cbn in *. by destruct (mb =? 0).
  - destruct s as [k c tx rx e mb q bl th]. cbn in *. destruct (mb =? 0); [done|]. cbn. rewrite lookup_app_l by done. done.
  - destruct s as [k c tx rx e mb q bl th]. cbn in *. destruct (mb =? 0); [done|]. cbn. rewrite lookup_app_l by done. done.
Qed.
Lemma run_U c ops : InvU (rrun (rinit c) ops) ∧ (∀ t, r_lock (rrun (rinit c) ops) = Some t → t < length (r_thr (rrun (rinit c) ops))).
Proof.
  induction ops as [|o ops IH] using rev_ind; [by split|]. rewrite rrun_app. destruct IH. by apply invU_step.
Qed.
Lemma stuck_forever c ops t : waits_for_itself (rrun (rinit c) ops) t →
  ∀ ops', r_thr (rrun (rrun (rinit c) ops) ops') !! t = r_thr (rrun (rinit c) ops) !! t ∧ r_lock (rrun (rrun (rinit c) ops) ops') = Some t.
Proof.
  intros H ops'. induction ops' as [|o ops' IH] using rev_ind; [cbn; by destruct H as (?&?&?&?&?)|].
  rewrite (rrun_app _ ops' [o]). cbn [rrun fold_left]. destruct IH as [IH1 IH2]. rewrite <-IH1. rewrite <-!rrun_app in *. apply stuck_step; [apply run_U|].
  destruct H as (u & rest & H1 & H2 & H3). exists u, rest. by rewrite IH1.
Qed.
