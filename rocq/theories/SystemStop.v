(** Actors on executors: stopping. *)
From stdpp Require Import base numbers list list_numbers.
From Coq Require Import Lia.
From Verif Require Import Prio Heap State Model HeapProofs Frame Lib InvBusy InvCount Effects InvMsg InvOne InvOne2 InvBc Mono Events Spec Bridge FinishSpec FinishProofs
  FinalC FinalG FinalI ClaimsA ClaimsB ClaimsC ClaimsE ClaimsN System SystemSpec SystemProofs SystemInv SystemEnd SystemLost StopSpec.

(** ** Fields of receiver-side objects that steps keep *)
Definition same2 (x x' : holder) : Prop := h_bq x' = h_bq x ∧ (h_run x = false → h_st x ≠ HRecvBusy → h_run x' = false ∨ ∃ a, h_st x = HDispNew a).
Lemma api_same2 s o r x : hols s !! r = Some x → ∃ x', hols (api o s) !! r = Some x' ∧ same2 x x'.
Proof.
  intros Hx. assert (same2 x x) as HK by (split; [done|]; by left).
  destruct o; cbn [api] in *; repeat (dgoal; try by eauto); cbv zeta; unfold add_addr; repeat dgoal;
    repeat (progress (prj; autorewrite with fr_hols)); eauto.
  all: try (exists x; split; [by apply lookup_app_l_Some|done]).
  all: match goal with |- context [<[?q:=_]> _ !! ?rr] => destruct (decide (q = rr)) as [->|Hq] end; [|rewrite list_lookup_insert_ne by congruence; by eauto].
  all: rewrite list_lookup_insert by (by eapply lookup_lt_Some); eexists; (split; [done|]); simplify_eq; (split; [done|]); cbn; eauto.
Qed.
Lemma exec_same2 u s s1 new r x : exec u s = (s1, new) → hols s !! r = Some x → ∃ x', hols s1 !! r = Some x' ∧ same2 x x'.
Proof.
  intros E Hx. assert (same2 x x) as HK by (split; [done|]; by left).
  exec_cases u E; unfold panic_recv in *; repeat (progress (prj; autorewrite with fr_hols)); eauto.
  1: { exists x. split; [by apply lookup_app_l_Some|done]. }
  all: match goal with |- context [alter _ ?q _ !! ?rr] => destruct (decide (q = rr)) as [->|Hq]; [|rewrite list_lookup_alter_ne by done; by eauto] end.
  all: rewrite list_lookup_alter, Hx; eexists; split; [done|]; (split; [done|]); cbn; eauto.
Qed.
Lemma step_same2 s o r x : hols s !! r = Some x → ∃ x', hols (step s o) !! r = Some x' ∧ same2 x x'.
Proof.
  intros Hx. unfold step. rewrite collect_hols. destruct o as [t| | | | | | | | | | | | | | | | | | | | | | | | | | |]; try (by apply api_same2).
  unfold do_step. destruct (thr s !! t) as [[|u rest]|] eqn:Ht; try (exists x; split; [done|]; split; [done|]; by left).
  destruct (exec u s) as [s1 new] eqn:E. prj. by eapply exec_same2.
Qed.

(** ** A task that will stop *)
Definition wst (s : state) (t : task) : Prop :=
  match t_st t with
  | TStop | TDrop | TDone => True
  | TAwait r => ∃ x, hols s !! r = Some x ∧
      match h_st x with HMsg a | HDispNew a => stopping a = true | HRun _ => h_run x = false | HGone => 0 < FLc r true s | _ => False end
  | _ => False
  end.
Lemma wst_keep s o t : reach s → (∀ r, touched o = Some r → of1 t r = false) → wst s t → wst (step s o) t.
Proof.
  intros Hr Ho HW. unfold wst, of1 in *. destruct (t_st t) as [| |r| | |] eqn:Es; try done. destruct HW as (x & Hx & HW).
  assert (touched o ≠ Some r) as Hto by (intros E; specialize (Ho _ E); by rewrite Nat.eqb_refl in Ho).
  destruct (hol_keep s o r x Hr Hx Hto) as (x' & Hx' & HK). destruct (step_same2 s o r x Hx) as (x2 & Hx2 & _ & HR). simplify_eq.
  exists x'. split; [done|]. destruct HK as [[-> _]|(E & _)]; [|by rewrite E in HW]. destruct (h_st x) eqn:E; try done.
  - destruct (HR HW) as [?|[? [=]]]; done.
  - pose proof (step_FLc r true o s). lia.
Qed.
Lemma wst_task s t v s' st : reachable s → tinv s t → task_step t v s = Some (s', st) → wst s t → wst s' (TK (t_mb t) st).
Proof.
  intros Hrr Ht E HW. unfold wst in *. cbn [t_st]. unfold task_step in E. destruct (t_st t) as [| |r| | |]; try done; try (by injection E as <- <-).
  destruct HW as (x & Hx & HW). rewrite Hx in E. assert (r < length (hols s)) as Hl by by eapply lookup_lt_Some. destruct x as [b hs k w]. cbn [h_st h_run h_wk] in *.
  destruct hs as [| | |o|a|a|a|]; try done.
  - injection E as <- <-. exists (HO b (HDispNew a) k w). unfold step. rewrite collect_hols. cbn [api]. rewrite Hx. prj. by rewrite list_lookup_insert.
  - injection E as <- <-. exists (HO b HGone k w). unfold step. rewrite collect_hols, collect_FLc. cbn [api]. rewrite Hx.
    destruct a as [|[]|]; try done; (split; [prj; by rewrite list_lookup_insert|]); cbn [h_st]; unfold FLc; rewrite msum_call; cbn; unfold isn; rewrite Nat.eqb_refl; lia.
  - injection E as <- <-. exists (HO b HGone k w). unfold step. rewrite collect_hols, collect_FLc. cbn [api]. rewrite Hx. subst k.
    destruct a; (split; [prj; by rewrite list_lookup_insert|]); cbn [h_st]; unfold FLc; rewrite msum_call; cbn; unfold isn; rewrite Nat.eqb_refl; lia.
  - destruct (flow_of r (log s)) as [[]|] eqn:Ef; [| |done]; injection E as <- <-; [done|]. apply flow_in in Ef.
    destruct (flow_facts s r true Hrr HW) as [H0 _]. unfold FLc in H0. cbn in H0. lia.
Qed.
(** What a step of a task touches does not belong to other tasks. *)
Lemma task_other2 y i j t t' v s' st : SInv y → i ≠ j → tk y !! i = Some t → tk y !! j = Some t' → task_step t v (ch y) = Some (s', st) →
  s' = ch y ∨ ∃ o, s' = step (ch y) o ∧ (∀ r, touched o = Some r → of1 t' r = false) ∧ ∀ q, o ≠ AStopSelf q.
Proof.
  intros I Hij Ht Hj E. destruct (proj2 I i j t t' Hij Ht Hj) as [A1 A2]. pose proof (proj1 I _ _ Ht) as HT. pose proof (proj1 I _ _ Hj) as HT'.
  assert (t_st t ≠ TDone) as Hd by (intros E1; unfold task_step in E; by rewrite E1 in E).
  assert (∀ o, (∀ r, touched o = Some r → t_st t = TAwait r ∨ r = t_mb t) → ∀ r, touched o = Some r → of1 t' r = false) as HS.
  { intros o Ho r Hor. unfold of1.
    assert (t_st t' ≠ TDone → (t_mb t' =? r) = false) as Hmb.
    { intros Hd'. apply Nat.eqb_neq. destruct (Ho r Hor) as [E1| ->]; [by apply (apart_mb _ t' t r HT' HT E1 Hd')|]. intros E1. by apply A1. }
    destruct (t_st t') as [| |q| | |] eqn:E2; try (by apply Hmb); [|done]. rewrite Hmb by done. rewrite orb_false_r. apply Nat.eqb_neq. intros ->.
    destruct (Ho r Hor) as [E1| ->]; [by apply (A2 r E1)|]. by apply (apart_mb _ t t' (t_mb t) HT HT' E2 Hd). }
  destruct (task_cases _ _ _ _ _ E) as [(-> & _)|[(_ & -> & _)|[(r & h & o & E1 & Hh & Ho & -> & _)|(_ & -> & _)]]]; [by left|right..].
  - eexists. split; [done|]. split; [by apply HS|done].
  - eexists. split; [done|]. split; [apply HS; intros q; rewrite (await_touch _ _ _ _ Ho); intros [= <-]; by left|]. intros q ->. unfold await_op in Ho. by destruct (h_st h).
  - eexists. split; [done|]. split; [apply HS; intros q [= <-]; by right|done].
Qed.
Lemma task_other y i j t t' v s' st : SInv y → i ≠ j → tk y !! i = Some t → tk y !! j = Some t' → task_step t v (ch y) = Some (s', st) →
  s' = ch y ∨ ∃ o, s' = step (ch y) o ∧ ∀ r, touched o = Some r → of1 t' r = false.
Proof. intros H1 H2 H3 H4 H5. destruct (task_other2 y i j t t' v s' st H1 H2 H3 H4 H5) as [?|(o & ? & ? & _)]; [by left|right; by exists o]. Qed.
Lemma cancel_other y i j t t' s' st : SInv y → i ≠ j → tk y !! i = Some t → tk y !! j = Some t' → task_cancel t (ch y) = Some (s', st) →
  s' = ch y ∨ ∃ o, s' = step (ch y) o ∧ (∀ r, touched o = Some r → of1 t' r = false) ∧ ∀ q, o ≠ AStopSelf q.
Proof.
  intros I Hij Ht Hj E. destruct (proj2 I i j t t' Hij Ht Hj) as [A1 A2]. pose proof (proj1 I _ _ Ht) as HT. pose proof (proj1 I _ _ Hj) as HT'.
  destruct (cancel_cases _ _ _ _ E) as (Hd & _ & [[-> _]|(r & h & Es & Hh & -> & _)]); [by left|right]. exists (ADropHol r). split; [done|]. split; [|done]. intros q [= <-]. unfold of1.
  assert (t_st t' ≠ TDone → (t_mb t' =? r) = false) as Hmb by (intros Hd'; apply Nat.eqb_neq; by apply (apart_mb _ t' t r HT' HT Es Hd')).
  destruct (t_st t') as [| |q| | |] eqn:E2; try (by apply Hmb); [|done]. rewrite Hmb by done. rewrite orb_false_r. apply Nat.eqb_neq. intros ->. by apply (A2 r Es).
Qed.
Definition stops_at (y : sys) (i : nat) : Prop := ∃ t, tk y !! i = Some t ∧ wst (ch y) t.
Lemma stops_step y l i : reachable (ch y) → SInv y → stops_at y i → stops_at (sys_step y l) i.
Proof.
  intros Hrr I (t & Ht & HW). pose proof (reachable_reach _ Hrr) as Hr. destruct l as [o|h|j v|j]; cbn [sys_step].
  - destruct (foreign y o) eqn:Hf; [|by exists t]. exists t. split; [done|]. cbn [ch]. apply wst_keep; [done| |done].
    intros r Ho. eapply of_task_1; [|done]. destruct o; try done; cbn in Ho, Hf; injection Ho as <-; by apply negb_true_iff.
  - destruct (hols (ch y) !! h) as [[b [] k w]|] eqn:Hh; try (by exists t). destruct (of_task y h); [by exists t|]. exists t. split; [by apply lookup_app_l_Some|done].
  - destruct (tk y !! j) as [t'|] eqn:Hj; [|by exists t]. destruct (task_step t' v (ch y)) as [[s' st]|] eqn:E; [|by exists t]. unfold stops_at. cbn [ch tk].
    destruct (decide (j = i)) as [->|Hne].
    + rewrite Ht in Hj. injection Hj as <-. exists (TK (t_mb t) st). rewrite list_lookup_insert by (by eapply lookup_lt_Some). split; [done|]. by eapply wst_task; [|eapply (proj1 I)|..].
    + exists t. rewrite list_lookup_insert_ne by done. split; [done|].
      destruct (task_other y j i t' t v s' st I Hne Hj Ht E) as [-> |(o & -> & Ho)]; [done|]. by apply wst_keep.
  - destruct (tk y !! j) as [t'|] eqn:Hj; [|by exists t]. destruct (task_cancel t' (ch y)) as [[s' st]|] eqn:E; [|by exists t]. unfold stops_at. cbn [ch tk].
    destruct (decide (j = i)) as [->|Hne].
    + exists (TK (t_mb t') st). rewrite list_lookup_insert by (by eapply lookup_lt_Some). split; [done|]. by destruct (cancel_cases _ _ _ _ E) as (_ & -> & _).
    + exists t. rewrite list_lookup_insert_ne by done. split; [done|].
      destruct (cancel_other y j i t' t s' st I Hne Hj Ht E) as [-> |(o & -> & Ho & _)]; [done|]. by apply wst_keep.
Qed.
Lemma stops_rest y i : sys_reachable y → (∀ l, ¬ inner y l) → stops_at y i → ∃ t, tk y !! i = Some t ∧ t_st t = TDone.
Proof.
  intros Hy Hn (t & Ht & HW). exists t. split; [done|]. destruct (rest_tasks y Hy Hn i t Ht) as [?|(r & E & (h & o & rx & w & Hh & Ho & _))]; [done|].
  unfold wst in HW. rewrite E in HW. destruct HW as (x & Hx & HW). simplify_eq. by rewrite Ho in HW.
Qed.
Lemma told_stops y i : sys_reachable y → stops_at y i → leads (λ z, ∃ t, tk z !! i = Some t ∧ t_st t = TDone) y.
Proof.
  intros Hy Hi. apply (leads_all (λ y, sys_reachable y ∧ stops_at y i)); [by intros ? [? _]|..|done].
  - intros z l [Hz HW] _. split; [by apply sys_reachable_step|]. destruct (sys_reach z Hz) as [Hr I]. by apply stops_step.
  - intros z [Hz HW] Hn. by apply stops_rest.
Qed.

(** ** A task stops only if told to *)
Lemma api_run s o r x : hols s !! r = Some x → ∃ x', hols (api o s) !! r = Some x' ∧
  ((∃ a, h_st x' = HRun a) → h_run x' = false → (∃ a, h_st x = HRun a) ∧ (h_run x = false ∨ o = AStopSelf r)).
Proof.
  intros Hx. assert ((∃ a, h_st x = HRun a) → h_run x = false → (∃ a, h_st x = HRun a) ∧ (h_run x = false ∨ o = AStopSelf r)) as HK by (intros; split; [done|by left]).
  destruct o; cbn [api] in *; repeat (dgoal; try by eauto); cbv zeta; unfold add_addr; repeat dgoal;
    repeat (progress (prj; autorewrite with fr_hols)); eauto.
  all: try (exists x; split; [by apply lookup_app_l_Some|done]).
  all: match goal with |- context [<[?q:=_]> _ !! ?rr] => destruct (decide (q = rr)) as [->|Hq] end; [|rewrite list_lookup_insert_ne by congruence; by eauto].
  all: rewrite list_lookup_insert by (by eapply lookup_lt_Some); eexists; (split; [done|]); simplify_eq; cbn; intros [? ?] ?; try done; eauto.
Qed.
Lemma exec_run u s s1 new r x : exec u s = (s1, new) → hols s !! r = Some x → ∃ x', hols s1 !! r = Some x' ∧
  ((∃ a, h_st x' = HRun a) → h_run x' = false → (∃ a, h_st x = HRun a) ∧ h_run x = false).
Proof.
  intros E Hx. assert ((∃ a, h_st x = HRun a) → h_run x = false → (∃ a, h_st x = HRun a) ∧ h_run x = false) as HK by (intros; split; done).
  exec_cases u E; unfold panic_recv in *; repeat (progress (prj; autorewrite with fr_hols)); eauto.
  1: { exists x. split; [by apply lookup_app_l_Some|done]. }
  all: match goal with |- context [alter _ ?q _ !! ?rr] => destruct (decide (q = rr)) as [->|Hq]; [|rewrite list_lookup_alter_ne by done; by eauto] end.
  all: rewrite list_lookup_alter, Hx; eexists; split; [done|]; cbn; intros [? ?] ?; try done; eauto.
Qed.
Lemma step_run s o r x : hols s !! r = Some x → ∃ x', hols (step s o) !! r = Some x' ∧
  ((∃ a, h_st x' = HRun a) → h_run x' = false → (∃ a, h_st x = HRun a) ∧ (h_run x = false ∨ o = AStopSelf r)).
Proof.
  intros Hx. unfold step. rewrite collect_hols. destruct o as [t| | | | | | | | | | | | | | | | | | | | | | | | | | |]; try (by apply api_run).
  unfold do_step. destruct (thr s !! t) as [[|u rest]|] eqn:Ht; try (exists x; split; [done|]; intros; split; [done|]; by left).
  destruct (exec u s) as [s1 new] eqn:E. prj. destruct (exec_run u s s1 new r x E Hx) as (x' & Hx' & H). exists x'. split; [done|]. intros H1 H2. destruct (H H1 H2). split; [done|by left].
Qed.
(** What is recorded of the task [i] in the execution [l]. *)
Definition why_inv (c : option nat) (l : list sop) (i : nat) : Prop := let y := sys_run (sys_init c) l in
  ∀ r, awaits y i r → ((∃ h, hols (ch y) !! r = Some h ∧ (∃ a, h_st h = HRun a) ∧ h_run h = false) → self_stopped c l i) ∧
    (0 < FLc r true (ch y) → self_stopped c l i ∨ stop_received c l i).
Lemma self_more c l x i : self_stopped c l i → self_stopped c (l ++ [x]) i.
Proof. intros (l1 & l2 & r & -> & H). exists l1, (l2 ++ [x]), r. by rewrite <-app_assoc. Qed.
Lemma recv_more c l x i : stop_received c l i → stop_received c (l ++ [x]) i.
Proof. intros (l1 & l2 & r & -> & H). exists l1, (l2 ++ [x]), r. by rewrite <-app_assoc. Qed.
Lemma why_keep c l x i r o : let y := sys_run (sys_init c) l in reach (ch y) → why_inv c l i → awaits y i r → touched o ≠ Some r →
  (o = AStopSelf r → x = SCall (AStopSelf r)) → (∃ h, hols (ch y) !! r = Some h) →
  ((∃ h, hols (step (ch y) o) !! r = Some h ∧ (∃ a, h_st h = HRun a) ∧ h_run h = false) → self_stopped c (l ++ [x]) i) ∧
  (0 < FLc r true (step (ch y) o) → self_stopped c (l ++ [x]) i ∨ stop_received c (l ++ [x]) i).
Proof.
  intros y Hr HI Ha Hto Hself [h0 Hh0]. destruct (HI r Ha) as [H1 H2]. split.
  - intros (h & Hh & Ha1 & Hf). destruct (step_run (ch y) o r h0 Hh0) as (h' & Hh' & HR). rewrite Hh' in Hh. injection Hh as <-.
    destruct (HR Ha1 Hf) as [Hr0 [Hf0|Eo]]; [apply self_more, H1; by exists h0|]. destruct Hr0 as [a0 Ha0].
    exists l, [], r. rewrite (Hself Eo). split_and!; [done| |done]. by exists h0, a0.
  - destruct (step_FLc r true o (ch y)) as [_ E]. rewrite (E Hto). intros H. destruct (H2 H) as [?|?]; [left; by apply self_more|right; by apply recv_more].
Qed.
Lemma aw_some s r : aw s r → ∃ h, hols s !! r = Some h.
Proof. intros (x & Hx & _). by exists x. Qed.
Lemma why_run c l i : why_inv c l i.
Proof.
  induction l as [|x l IH] using rev_ind; [intros r (t & Ht & _); done|].
  destruct (sys_reach (sys_run (sys_init c) l)) as [Hrr I]; [by exists c, l|]. pose proof (reachable_reach _ Hrr) as Hr.
  intros r Ha. rewrite sys_run_snoc in *. set (y := sys_run (sys_init c) l) in *.
  assert (awaits y i r → ch (sys_step y x) = ch y →
    ((∃ h, hols (ch (sys_step y x)) !! r = Some h ∧ (∃ a, h_st h = HRun a) ∧ h_run h = false) → self_stopped c (l ++ [x]) i) ∧
    (0 < FLc r true (ch (sys_step y x)) → self_stopped c (l ++ [x]) i ∨ stop_received c (l ++ [x]) i)) as HK.
  { intros Hy E. rewrite E. destruct (IH r Hy) as [H1 H2]. split; [intros H; apply self_more; auto|]. intros H. destruct (H2 H) as [?|?]; [left; by apply self_more|right; by apply recv_more]. }
  destruct Ha as (t & Ht & Es). destruct x as [o|h|j v|j]; cbn [sys_step] in *.
  - destruct (foreign y o) eqn:Hf; cbn [ch tk] in *; [|apply HK; [by exists t|done]]. pose proof (proj1 I _ _ Ht) as HT. unfold tinv in HT. rewrite Es in HT.
    apply why_keep; try done; [by exists t| |by intros ->|apply aw_some, HT].
    intros Ho. assert (of1 t r = false) as H1.
    { eapply of_task_1; [|done]. destruct o; try done; cbn in Ho, Hf; injection Ho as <-; by apply negb_true_iff. }
    unfold of1 in H1. rewrite Es, Nat.eqb_refl in H1. done.
  - destruct (hols (ch y) !! h) as [[b [] k w]|] eqn:Hh; try (apply HK; [by exists t|done]). destruct (of_task y h); [apply HK; [by exists t|done]|]. cbn [ch tk] in *.
    apply HK; [|done]. apply lookup_app_Some in Ht as [Ht|[_ Ht]]; [by exists t|]. apply list_lookup_singleton_Some in Ht as [_ <-]. done.
  - destruct (tk y !! j) as [t'|] eqn:Hj; [|apply HK; [by exists t|done]]. destruct (task_step t' v (ch y)) as [[s' st]|] eqn:E; [|apply HK; [by exists t|done]]. cbn [ch tk] in *.
    destruct (decide (j = i)) as [->|Hne].
    + rewrite list_lookup_insert in Ht by (by eapply lookup_lt_Some). injection Ht as <-. cbn [t_st] in Es. subst st. pose proof (proj1 I _ _ Hj) as HT. unfold tinv in HT.
      destruct (task_cases _ _ _ _ _ E) as [(_ & H & _)|[(Es & -> & H)|[(q & h & o & Es & Hh & Ho & -> & H)|(_ & _ & H)]]]; [by destruct (H r)| | |done].
      * injection H as ->. rewrite Es in HT. destruct (next_new (ch y) _ Hr HT) as [b Hb]. split.
        { intros (h & Hh & (a & Ha) & _). rewrite Hb in Hh. injection Hh as <-. done. }
        { intros HF. destruct (flow_facts (step (ch y) (ANext (t_mb t'))) (length (hols (ch y))) true) as [_ (h & Hh & Hg)]; [|done|rewrite Hb in Hh; by injection Hh as <-].
          destruct Hrr as (c' & ops & ->). exists c', (ops ++ [ANext (t_mb t')]). by rewrite run_snoc. }
      * injection H as <-. assert (awaits y i r) as Ha by by exists t'. destruct (IH r Ha) as [H1 H2].
        assert (h_st h ≠ HGone → FLc r true (ch y) = 0) as HF0.
        { intros Hg. destruct (FLc r true (ch y)) eqn:EF; [done|]. destruct (flow_facts (ch y) r true Hrr ltac:(lia)) as [_ (h1 & Hh1 & Hg1)]. rewrite Hh in Hh1. by injection Hh1 as <-. }
        destruct h as [b hs k w]. unfold await_op in Ho. cbn [h_st] in *. assert (r < length (hols (ch y))) as Hl by by eapply lookup_lt_Some.
        unfold step. rewrite collect_hols, collect_FLc. destruct hs as [| | |o'|a|a|a|]; try done; injection Ho as <-; cbn [api]; rewrite Hh; cbn [h_st].
        all: specialize (HF0 ltac:(done)).
        all: unfold FLc, msum in *.
        -- split; [|prj; rewrite sum_snoc; cbn; lia]. intros (h & Hx & (a & Ha1) & _). prjin Hx. rewrite list_lookup_insert in Hx by done. by injection Hx as <-.
        -- split; [|prj; rewrite sum_snoc; cbn; lia]. intros (h & Hx & (a & Ha1) & _). prjin Hx. rewrite list_lookup_insert in Hx by done. by injection Hx as <-.
        -- split; [|prj; lia]. intros (h & Hx & (a1 & Ha1) & _). prjin Hx. rewrite list_lookup_insert in Hx by done. by injection Hx as <-.
        -- assert (stopping a = true → stop_received c (l ++ [STask i v]) i) as HS.
           { intros Hs. exists l, [STask i v], r. split; [done|]. split; [|done]. exists (HO b (HDispNew a) k w), a. split; [done|]. split; [by right|].
             destruct a as [|[]|]; try done; [by right; eexists|by left]. }
           destruct a as [m|[]|]; (split; [intros (h & Hx & (a1 & Ha1) & Hf); prjin Hx; rewrite list_lookup_insert in Hx by done; by injection Hx as <-|prj; intros HX]).
           all: try (exfalso; cbn in HX; lia).
           all: right; by apply HS.
        -- destruct k.
           { destruct a; (split; [intros (h & Hx & (a1 & Ha1) & Hf); prjin Hx; rewrite list_lookup_insert in Hx by done; by injection Hx as <-|prj; rewrite sum_snoc; cbn; unfold isn; rewrite ?Nat.eqb_refl; cbn; lia]). }
           { assert (self_stopped c l i) as HS by (apply H1; by eexists; split; [done|]; split; [by exists a|]). apply (self_more _ _ (STask i v)) in HS. split; [by intros|by left]. }
    + assert (awaits y i r) as Ha by (rewrite list_lookup_insert_ne in Ht by done; by exists t). rewrite list_lookup_insert_ne in Ht by done.
      destruct (task_other2 y j i t' t v s' st I Hne Hj Ht E) as [-> |(o & -> & Ho & Hself)]; [by apply HK|].
      pose proof (proj1 I _ _ Ht) as HT. unfold tinv in HT. rewrite Es in HT. apply why_keep; try done; [|  |apply aw_some, HT].
      * intros E1. apply Ho in E1. unfold of1 in E1. by rewrite Es, Nat.eqb_refl in E1.
      * intros E1. by apply Hself in E1.
  - destruct (tk y !! j) as [t'|] eqn:Hj; [|apply HK; [by exists t|done]]. destruct (task_cancel t' (ch y)) as [[s' st]|] eqn:E; [|apply HK; [by exists t|done]]. cbn [ch tk] in *.
    destruct (decide (j = i)) as [->|Hne].
    + rewrite list_lookup_insert in Ht by (by eapply lookup_lt_Some). injection Ht as <-. cbn [t_st] in Es. subst st. by destruct (cancel_cases _ _ _ _ E) as (_ & ? & _).
    + rewrite list_lookup_insert_ne in Ht by done. assert (awaits y i r) as Ha by by exists t.
      destruct (cancel_other y j i t' t s' st I Hne Hj Ht E) as [-> |(o & -> & Ho & Hself)]; [by apply HK|].
      pose proof (proj1 I _ _ Ht) as HT. unfold tinv in HT. rewrite Es in HT. apply why_keep; try done; [|  |apply aw_some, HT].
      * intros E1. apply Ho in E1. unfold of1 in E1. by rewrite Es, Nat.eqb_refl in E1.
      * intros E1. by apply Hself in E1.
Qed.
Lemma cancel_await y i t s' st : tk y !! i = Some t → task_cancel t (ch y) = Some (s', st) → at_await y i.
Proof.
  intros Ht E. exists t. split; [done|]. destruct (cancel_cases _ _ _ _ E) as (_ & _ & [[_ [?|?]]|(r & h & Es & Hh & _ & Hst)]); [by left|by right; left|]. right; right. by exists r, h.
Qed.
Lemma cancel_more c l x i : cancelled c l i → cancelled c (l ++ [x]) i.
Proof. intros (l1 & l2 & -> & H). exists l1, (l2 ++ [x]). by rewrite <-app_assoc. Qed.
Lemma stop_reason c l i : stopping_task (sys_run (sys_init c) l) i → start_failed c l i ∨ cancelled c l i ∨ self_stopped c l i ∨ stop_received c l i.
Proof.
  induction l as [|x l IH] using rev_ind; [by intros (t & Ht & _)|]. rewrite sys_run_snoc.
  assert (stopping_task (sys_run (sys_init c) l) i → start_failed c (l ++ [x]) i ∨ cancelled c (l ++ [x]) i ∨ self_stopped c (l ++ [x]) i ∨ stop_received c (l ++ [x]) i) as HK.
  { intros H. destruct (IH H) as [(l1 & v & l2 & t & -> & H1)|[H1|[H1|H1]]]; [left|right; left; by apply cancel_more|right; right; left; by apply self_more|do 3 right; by apply recv_more].
    exists l1, v, (l2 ++ [x]), t. rewrite <-app_assoc. done. }
  pose proof (why_run c l i) as HW. unfold why_inv in HW. set (y := sys_run (sys_init c) l) in *. intros (t & Ht & Hs). destruct x as [o|h|j v|j]; cbn [sys_step] in Ht.
  - apply HK. exists t. split; [|done]. by destruct (foreign y o).
  - apply HK. exists t. split; [|done]. destruct (hols (ch y) !! h) as [[b [] k w]|] eqn:Hh; try done. destruct (of_task y h); [done|]. cbn [ch tk] in Ht.
    apply lookup_app_Some in Ht as [Ht|[_ Ht]]; [done|]. apply list_lookup_singleton_Some in Ht as [_ <-]. cbn in Hs. by destruct Hs as [?|[?|?]].
  - destruct (tk y !! j) as [t'|] eqn:Hj; [|apply HK; by exists t]. destruct (task_step t' v (ch y)) as [[s' st]|] eqn:E; [|apply HK; by exists t]. cbn [ch tk] in *.
    destruct (decide (j = i)) as [->|Hne]; [|rewrite list_lookup_insert_ne in Ht by done; apply HK; by exists t].
    rewrite list_lookup_insert in Ht by (by eapply lookup_lt_Some). injection Ht as <-. cbn [t_st] in Hs. unfold task_step in E. destruct (t_st t') as [| |r| | |] eqn:Es.
    + injection E as <- <-. destruct v as [|v]; [by destruct Hs as [?|[?|?]]|]. left. exists l, (S v), [], t'. done.
    + injection E as <- <-. by destruct Hs as [?|[?|?]].
    + assert (awaits y i r) as Ha by by exists t'. destruct (HW r Ha) as [_ H2].
      assert (0 < FLc r true (ch y)) as HF.
      { destruct (hols (ch y) !! r) as [h|]; [|done]. destruct (h_st h); try done; try (injection E as <- <-; by destruct Hs as [?|[?|?]]).
        - destruct (existsb _ _); [|done]. injection E as <- <-. by destruct Hs as [?|[?|?]].
        - destruct (flow_of r (log (ch y))) as [[]|] eqn:Ef; [|injection E as <- <-; by destruct Hs as [?|[?|?]]|done]. apply flow_in in Ef. unfold FLc. lia. }
      destruct (H2 HF) as [?|?]; [right; right; left; by apply self_more|do 3 right; by apply recv_more].
    + apply HK. exists t'. rewrite Es. auto.
    + apply HK. exists t'. rewrite Es. auto.
    + done.
  - destruct (tk y !! j) as [t'|] eqn:Hj; [|apply HK; by exists t]. destruct (task_cancel t' (ch y)) as [[s' st]|] eqn:E; [|apply HK; by exists t]. cbn [ch tk] in *.
    destruct (decide (j = i)) as [->|Hne]; [|rewrite list_lookup_insert_ne in Ht by done; apply HK; by exists t].
    right; left. exists l, []. split; [done|]. by eapply cancel_await.
Qed.
(** ** Unreceived broadcasts *)
Lemma bq_get_put b h s k : bq_get (bq_put b h s) k = if decide (k = b ∧ b < length (bqueues s)) then h else bq_get s k.
Proof.
  unfold bq_get, bq_put. destruct (bqueues s !! b) as [q|] eqn:E; prj.
  - apply lookup_lt_Some in E as Hl. destruct (decide _) as [[-> _]|Hn]; [by rewrite list_lookup_insert|]. rewrite list_lookup_insert_ne; [done|]. intros ->. by destruct Hn.
  - apply lookup_ge_None in E. destruct (decide _) as [[_ ?]|_]; [lia|done].
Qed.
Lemma puts_keep (x m : bmsg) l s b : x ∈ bq_get s b → x ∈ bq_get (fold_left (λ s b, bq_put b (heap_push bm_prio m (bq_get s b)) s) l s) b.
Proof.
  revert s. induction l as [|c l IH]; intros s H; [done|]. cbn [fold_left]. apply IH. rewrite bq_get_put. destruct (decide _) as [[-> _]|_]; [|done].
  rewrite heap_push_perm. by right.
Qed.
Lemma get_eq s s' b : bqueues s' = bqueues s → bq_get s' b = bq_get s b.
Proof. unfold bq_get. by intros ->. Qed.
Lemma send_keep (x m : bmsg) s b : x ∈ bq_get s b → x ∈ bq_get (send_broadcast m s) b.
Proof.
  intros H. unfold send_broadcast. cbv zeta. rewrite (get_eq (fold_left (λ s b, bq_put b (heap_push bm_prio m (bq_get s b)) s) (List.filter (bq_live s) (bqs s)) s)); [by apply puts_keep|].
  by repeat (progress (prj; autorewrite with fr_bqueues)).
Qed.
#[local] Instance bmsg_dec : EqDecision bmsg.
Proof. solve_decision. Defined.
Lemma pop_keep (x : bmsg) c s b : x ∈ bq_get s b → x ∈ bq_get (fst (pop_broadcast c s)) b ∨ b = c ∧ snd (pop_broadcast c s) = Some x.
Proof.
  intros H. destruct (pop_broadcast_cases c s) as [[_ ->]|(m & h & Hp & E & HC)]; [by left|]. rewrite E. apply heap_pop_perm in Hp.
  destruct (decide (b = c ∧ m = x)) as [[-> ->]|Hn]; [by right|]. left.
  assert (x ∈ bq_get (pop_put c h s) b) as HX.
  { unfold pop_put. rewrite (get_eq (bq_put c h s)) by done. rewrite bq_get_put. destruct (decide _) as [[-> _]|_]; [|done].
    rewrite Hp in H. apply elem_of_cons in H as [-> |H]; [by destruct Hn|done]. }
  destruct HC as [[_ ->]|(_ & s3 & z & _ & (Hq & _) & ->)]; [done|]. assert (x ∈ bq_get s3 b) as H3 by (by rewrite (get_eq (pop_put c h s))). destruct z; [by apply send_keep|done].
Qed.
Definition hands (x : bmsg) (b : nat) (s s1 : state) : Prop :=
  ∃ r h h', hols s !! r = Some h ∧ h_st h = HRecvBusy ∧ h_bq h = b ∧ hols s1 !! r = Some h' ∧ h_st h' = HMsg (ToAll x).
Lemma exec_keep_b (x : bmsg) b s t u rest s1 new : reach s → thr s !! t = Some (u :: rest) → exec u s = (s1, new) → owned_queue s b →
  x ∈ bq_get s b → x ∈ bq_get s1 b ∨ hands x b s s1.
Proof.
  intros Hr Ht E Ho Hx.
  assert (∀ s2, bqueues s2 = bqueues s → x ∈ bq_get s2 b) as HK by (intros s2 E2; by rewrite (get_eq s)).
  pose proof (busyR_at s t u rest) as HB.
  exec_cases u E; unfold panic_recv; try (left; apply HK; by repeat (progress (prj; autorewrite with fr_bqueues))).
  - (* the last owner *) left. unfold bq_get in *. prj. destruct (decide (b = b0)) as [->|Hn]; [|by rewrite list_lookup_insert_ne]. exfalso.
    apply Nat.eqb_eq in Em0. pose proof (reach_bq s Hr b0) as HQ. rewrite (at_some _ _ _ _ Em), Em0 in HQ.
    pose proof (msum_head (g_bq b0) s t _ rest Ht) as HH. cbn in HH. unfold isn in HH. rewrite Nat.eqb_refl in HH.
    destruct Ho as (r & h & Hh & Hs & Hb). pose proof (sum_lookup (h_own b0) _ _ _ Hh) as H2. unfold h_own in H2 at 1. rewrite Hb, Nat.eqb_refl in H2.
    destruct (h_st h); try done; lia.
  - left. unfold bq_get in *. prj. destruct (decide (b = b0)) as [->|Hn]; [|by rewrite list_lookup_insert_ne].
    rewrite list_lookup_insert by (by eapply lookup_lt_Some). by rewrite Em in Hx.
  - left. unfold bq_get in *. prj. destruct (bqueues s !! b) as [q|] eqn:Eq; [by rewrite (lookup_app_l_Some _ _ _ _ Eq)|by apply elem_of_nil in Hx].
  - left. by apply send_keep.
  - destruct (pop_keep x (h_bq h) s b Hx) as [H|[-> H]].
    + left. rewrite (get_eq (fst (pop_broadcast (h_bq h) s))); [done|]. unfold deliver. by repeat (progress (prj; autorewrite with fr_bqueues)).
    + right. rewrite H in E2. injection E2 as ->. destruct (HB r Hr Ht) as (h1 & Hh1 & Hs1); [cbn; by rewrite Nat.eqb_refl|]. rewrite Em in Hh1. injection Hh1 as <-.
      eexists r, h, _. split_and!; [done..| |]; [unfold deliver; repeat (progress (prj; autorewrite with fr_hols)); rewrite list_lookup_alter, Em; done|done].
  - destruct (pop_keep x (h_bq h) s b Hx) as [H|[-> H]]; [|congruence].
    left. rewrite (get_eq (fst (pop_broadcast (h_bq h) s))); [done|]. by repeat (progress (prj; autorewrite with fr_bqueues)).
  - destruct (pop_keep x (h_bq h) s b Hx) as [H|[-> H]].
    + left. rewrite (get_eq (fst (pop_broadcast (h_bq h) s))); [done|]. unfold deliver. by repeat (progress (prj; autorewrite with fr_bqueues)).
    + right. rewrite H in E2. injection E2 as ->. destruct (HB r Hr Ht) as (h1 & Hh1 & Hs1); [cbn; by rewrite Nat.eqb_refl|]. rewrite Em in Hh1. injection Hh1 as <-.
      eexists r, h, _. split_and!; [done..| |]; [unfold deliver; repeat (progress (prj; autorewrite with fr_hols)); rewrite list_lookup_alter, Em; done|done].
  - destruct (pop_keep x (h_bq h) s b Hx) as [H|[-> H]]; [by left|congruence].
  - left. apply send_keep. by rewrite (get_eq s).
Qed.
Lemma api_keep_b o s b : bq_get (api o s) b = bq_get s b.
Proof.
  destruct o; cbn [api]; repeat (dgoal; try done); cbv zeta; unfold add_addr; repeat dgoal; try (apply get_eq; by repeat (progress (prj; autorewrite with fr_bqueues))).
  all: unfold bq_get; prj; match goal with H : bqueues ?s !! ?c = Some ?q |- context [<[?c := _]> (bqueues ?s) !! ?b] => destruct (decide (b = c)) as [->|Hn];
    [rewrite list_lookup_insert by (by eapply lookup_lt_Some); by rewrite H|by rewrite list_lookup_insert_ne] end.
Qed.
Lemma step_keep_b (x : bmsg) o b s : reach s → owned_queue s b → x ∈ bq_get s b → x ∈ bq_get (step s o) b ∨ hands x b s (step s o) ∧ ∃ t, o = Step t.
Proof.
  intros Hr Ho Hx. assert (∀ z, bq_get (collect z) b = bq_get z b) as HC.
  { intros z. unfold collect. destruct (chan_owned z); [done|]. apply get_eq. by repeat (progress (prj; autorewrite with fr_bqueues)). }
  unfold step. rewrite HC. destruct o as [t| | | | | | | | | | | | | | | | | | | | | | | | | | |]; try (left; by rewrite api_keep_b).
  unfold do_step. destruct (thr s !! t) as [[|u rest]|] eqn:Ht; try by left. destruct (exec u s) as [s1 new] eqn:E.
  destruct (exec_keep_b x b s t u rest s1 new Hr Ht E Ho Hx) as [H|(r & h & h' & H1 & H2 & H3 & H4 & H5)]; [by left|right]. split; [|by eexists].
  exists r, h, h'. by rewrite collect_hols.
Qed.

(** ** The queues of the tasks *)
Definition mbq (s : state) (r b : nat) : Prop := ∃ x, hols s !! r = Some x ∧ h_st x = HMailbox ∧ h_bq x = b.
Lemma api_mbq o s r b : mbq (api o s) r b → mbq s r b.
Proof.
  unfold mbq. destruct o; cbn [api] in *; repeat (dgoal; try done); cbv zeta; unfold add_addr; repeat dgoal; repeat (progress (prj; autorewrite with fr_hols)); try done.
  all: intros (x & Hx & Hs & Hb).
  all: try match goal with H : (<[?q:=_]> _) !! ?rr = Some _ |- _ => destruct (decide (q = rr)) as [->|Hq];
    [rewrite list_lookup_insert in H by (by eapply lookup_lt_Some); simplify_eq|rewrite list_lookup_insert_ne in H by done; by eauto] end.
  all: try done.
  all: apply lookup_app_Some in Hx as [?|[_ H]]; [by eauto|apply list_lookup_singleton_Some in H as [_ <-]; done].
Qed.
Lemma exec_mbq u s s1 new r b : reach s → exec u s = (s1, new) → mbq s1 r b → mbq s r b ∨ r = length (hols s) ∧ ∀ k x, hols s !! k = Some x → h_bq x ≠ b.
Proof.
  intros Hr E. unfold mbq. exec_cases u E; unfold panic_recv in *; repeat (progress (prj; autorewrite with fr_hols)); eauto.
  all: intros (x & Hx & Hs & Hb).
  1: { apply lookup_app_Some in Hx as [?|[Hl H]]; [by eauto|]. right. apply list_lookup_singleton_Some in H as [H <-]. cbn in Hb. split; [lia|].
       intros k y Hk. pose proof (holder_lt s k y Hr Hk). lia. }
  all: match goal with H : alter _ ?q _ !! ?rr = Some _ |- _ => destruct (decide (q = rr)) as [->|Hq]; [|rewrite list_lookup_alter_ne in H by done; by eauto] end.
  all: rewrite list_lookup_alter in Hx; apply fmap_Some in Hx as (y & Hy & ->); cbn in Hs; done.
Qed.
Lemma step_mbq o s r b : reach s → mbq (step s o) r b → mbq s r b ∨ r = length (hols s) ∧ ∀ k x, hols s !! k = Some x → h_bq x ≠ b.
Proof.
  intros Hr. unfold step, mbq. rewrite collect_hols. destruct o as [t| | | | | | | | | | | | | | | | | | | | | | | | | | |]; try (intros H; left; by apply api_mbq in H).
  unfold do_step. destruct (thr s !! t) as [[|u rest]|] eqn:Ht; try by left. destruct (exec u s) as [s1 new] eqn:E. prj. by apply (exec_mbq u s s1 new).
Qed.
Definition one_each (s : state) : Prop := ∀ r r' b, mbq s r b → mbq s r' b → r = r'.
Lemma one_each_step o s : reach s → one_each s → one_each (step s o).
Proof.
  intros Hr H r r' b H1 H2. destruct (step_mbq o s r b Hr H1) as [H3|[-> H3]], (step_mbq o s r' b Hr H2) as [H4|[-> H4]]; [by eapply H| | |done].
  - destruct H3 as (x & Hx & _ & Hb). by apply H4 in Hx.
  - destruct H4 as (x & Hx & _ & Hb). by apply H3 in Hx.
Qed.
Definition qinv (y : sys) : Prop :=
  one_each (ch y) ∧
  (∀ i t r, tk y !! i = Some t → t_st t = TAwait r → ∃ x, hols (ch y) !! r = Some x ∧ mbq (ch y) (t_mb t) (h_bq x)).
Lemma mbq_keep s o r b : reach s → touched o ≠ Some r → mbq s r b → mbq (step s o) r b.
Proof.
  intros Hr Ho (x & Hx & Hs & Hb). destruct (mb_keep s o r Hr ltac:(by exists x) Ho) as (x' & Hx' & Hs'). destruct (step_same2 s o r x Hx) as (x2 & Hx2 & HB & _).
  exists x'. split_and!; [done..|]. simplify_eq. done.
Qed.
Lemma q2_keep s o t r : reach s → t_st t = TAwait r → (∀ r, touched o = Some r → of1 t r = false ∨ r ≠ t_mb t) →
  (∃ x, hols s !! r = Some x ∧ mbq s (t_mb t) (h_bq x)) → ∃ x, hols (step s o) !! r = Some x ∧ mbq (step s o) (t_mb t) (h_bq x).
Proof.
  intros Hr Es Ho (x & Hx & Hm). destruct (step_same2 s o r x Hx) as (x2 & Hx2 & HB & _). exists x2. split; [done|]. rewrite HB. apply mbq_keep; [done| |done].
  intros E. destruct (Ho _ E) as [H|H]; [|done]. unfold of1 in H. rewrite Es, Nat.eqb_refl, orb_true_r in H. done.
Qed.
Lemma qinv_step y l : reach (ch y) → SInv y → qinv y → qinv (sys_step y l).
Proof.
  intros Hr I [Q1 Q2]. destruct l as [o|h|j v|j]; cbn [sys_step].
  - destruct (foreign y o) eqn:Hf; [|done]. split; cbn [ch tk]; [by apply one_each_step|]. intros i t r Ht Es. apply q2_keep; [done..| |by eapply Q2].
    intros q Ho. left. eapply of_task_1; [|done]. destruct o; try done; cbn in Ho, Hf; injection Ho as <-; by apply negb_true_iff.
  - destruct (hols (ch y) !! h) as [[b [] k w]|] eqn:Hh; try done. destruct (of_task y h); [done|]. split; [done|]. cbn [ch tk]. intros i t r Ht Es.
    apply lookup_app_Some in Ht as [Ht|[_ Ht]]; [by eapply Q2|]. apply list_lookup_singleton_Some in Ht as [_ <-]. done.
  - destruct (tk y !! j) as [t'|] eqn:Hj; [|done]. destruct (task_step t' v (ch y)) as [[s' st]|] eqn:E; [|done]. cbn [ch tk].
    assert (one_each s') as HO1.
    { destruct (task_cases _ _ _ _ _ E) as [(-> & _)|[(_ & -> & _)|[(r & h & o & E1 & Hh & Ho & -> & _)|(_ & -> & _)]]]; [done|by apply one_each_step..]. }
    split; [done|]. cbn [ch tk]. intros i t r Ht Es. destruct (decide (j = i)) as [->|Hne].
    + rewrite list_lookup_insert in Ht by (by eapply lookup_lt_Some). injection Ht as <-. cbn [t_st t_mb] in *. subst st.
      destruct (task_cases _ _ _ _ _ E) as [(_ & H & _)|[(Es & -> & H)|[(q & h & o & E1 & Hh & Ho & -> & H)|(_ & _ & H)]]]; [by destruct (H r)| | |done].
      * injection H as ->. destruct (tinv_mb _ _ (proj1 I _ _ Hj) ltac:(by rewrite Es)) as (x & Hx & Hs).
        destruct (bq_some _ _ x Hr Hx ltac:(by rewrite Hs)) as [q Hq].
        exists (HO (h_bq x) HRecvNew true 0). split; [|apply mbq_keep; [done..|by exists x]].
        unfold step. rewrite collect_hols. cbn [api]. rewrite Hx, Hs. cbn [is_mailbox]. rewrite Hq. prj. rewrite lookup_app_r, Nat.sub_diag by lia. done.
      * injection H as ->. apply (q2_keep (ch y) o t' q Hr E1); [|by eapply Q2]. intros k. rewrite (await_touch _ _ _ _ Ho). intros [= <-]. right. intros ->.
        by apply (apart_mb _ t' t' (t_mb t') (proj1 I _ _ Hj) (proj1 I _ _ Hj) E1 ltac:(by rewrite E1)).
    + rewrite list_lookup_insert_ne in Ht by done.
      destruct (task_other y j i t' t v s' st I Hne Hj Ht E) as [-> |(o & -> & Ho)]; [by eapply Q2|]. apply q2_keep; [done..|intros q Hq; left; by apply Ho|by eapply Q2].
  - destruct (tk y !! j) as [t'|] eqn:Hj; [|done]. destruct (task_cancel t' (ch y)) as [[s' st]|] eqn:E; [|done]. cbn [ch tk].
    split; cbn [ch tk]; [by destruct (cancel_cases _ _ _ _ E) as (_ & _ & [[-> _]|(r & h & _ & _ & -> & _)]); [|apply one_each_step]|].
    intros i t r Ht Es. destruct (decide (j = i)) as [->|Hne].
    + rewrite list_lookup_insert in Ht by (by eapply lookup_lt_Some). injection Ht as <-. cbn [t_st] in Es. subst st. by destruct (cancel_cases _ _ _ _ E) as (_ & ? & _).
    + rewrite list_lookup_insert_ne in Ht by done.
      destruct (cancel_other y j i t' t s' st I Hne Hj Ht E) as [-> |(o & -> & Ho & _)]; [by eapply Q2|]. apply q2_keep; [done..|intros q Hq; left; by apply Ho|by eapply Q2].
Qed.
Lemma qinv_run c l : qinv (sys_run (sys_init c) l).
Proof.
  induction l as [|x l IH] using rev_ind.
  - split; [|by intros i t r Ht]. intros r r' b (x & Hx & _) (x' & Hx' & _). cbn in Hx, Hx'. destruct r, r'; done.
  - rewrite sys_run_snoc. destruct (sys_reach (sys_run (sys_init c) l)) as [Hr I]; [by exists c, l|]. apply qinv_step; [by apply reachable_reach|done|done].
Qed.

(** ** Telling all actors to stop *)
Definition bound (y : sys) (i : nat) : Prop :=
  stops_at y i ∨ ∃ t b n, tk y !! i = Some t ∧ t_st t ≠ TDone ∧ mbq (ch y) (t_mb t) b ∧ BStop n ∈ bq_get (ch y) b.
(** A step of the channel that touches nothing of the task. *)
Lemma bound_ch y i o t b n tk' : reachable (ch y) → SInv y → own y → qinv y → tk y !! i = Some t → t_st t ≠ TDone → mbq (ch y) (t_mb t) b → BStop n ∈ bq_get (ch y) b →
  touched o ≠ Some (t_mb t) → (∀ t', tk' !! i = Some t' → t' = t ∨ (∀ q, o ≠ Step q) ∧ t_mb t' = t_mb t ∧ t_st t' ≠ TDone) → (∃ t', tk' !! i = Some t') → bound (SY (step (ch y) o) tk') i.
Proof.
  intros Hrr I HW [Q1 Q2] Ht Hd Hm Hn Hto Htk [t' Ht']. pose proof (reachable_reach _ Hrr) as Hr.
  assert (owned_queue (ch y) b) as Hq by (destruct Hm as (x & Hx & Hs & Hb); exists (t_mb t), x; by rewrite Hs).
  destruct (step_keep_b _ o b (ch y) Hr Hq Hn) as [H|[(r & h & h' & Hh & Hs & Hb & Hh' & Hs') [q ->]]].
  - right. exists t', b, n. cbn [ch tk]. destruct (Htk t' Ht') as [-> |(_ & E1 & E2)]; split_and!; try done; [by apply mbq_keep|rewrite E1; by apply mbq_keep].
  - left. destruct (Htk t' Ht') as [-> |(H & _)]; [|by destruct (H q)]. exists t. split; [done|]. cbn [ch].
    destruct (HW r h Hh) as [E|[E|(j & tj & Hj & Ej)]]; [by rewrite Hs in E..|]. destruct (Q2 j tj r Hj Ej) as (x & Hx & Hmj).
    rewrite Hh in Hx. injection Hx as <-. rewrite Hb in Hmj. pose proof (Q1 _ _ _ Hm Hmj) as E. assert (i = j) as <-.
    { destruct (decide (i = j)) as [?|Hne]; [done|]. exfalso. apply (proj1 (proj2 I i j t tj Hne Ht Hj)); [done|by rewrite Ej|done]. }
    rewrite Ht in Hj. injection Hj as <-. unfold wst. rewrite Ej. exists h'. split; [done|]. by rewrite Hs'.
Qed.
Lemma bound_step y l i : reachable (ch y) → SInv y → own y → qinv y → bound y i → bound (sys_step y l) i.
Proof.
  intros Hrr I HH Q [H|(t & b & n & Ht & Hd & Hm & Hn)]; [left; by apply stops_step|]. assert (bound y i) as HB by (right; by exists t, b, n).
  destruct l as [o|h|j v|j]; cbn [sys_step].
  - destruct (foreign y o) eqn:Hf; [|done]. eapply bound_ch; try done; [|by intros t' Ht'; left; congruence|by exists t].
    intros Ho. assert (of1 t (t_mb t) = false) as H1.
    { eapply of_task_1; [|done]. destruct o; try done; cbn in Ho, Hf; injection Ho as <-; by apply negb_true_iff. }
    unfold of1 in H1. destruct (t_st t); try done; rewrite Nat.eqb_refl in H1; by rewrite ?orb_true_r in H1.
  - destruct (hols (ch y) !! h) as [[b' [] k w]|] eqn:Hh; try done. destruct (of_task y h); [done|]. right. exists t, b, n. split_and!; try done. by apply lookup_app_l_Some.
  - destruct (tk y !! j) as [t'|] eqn:Hj; [|done]. destruct (task_step t' v (ch y)) as [[s' st]|] eqn:E; [|done].
    destruct (decide (j = i)) as [->|Hne].
    + rewrite Ht in Hj. injection Hj as <-. assert (i < length (tk y)) as Hl by by eapply lookup_lt_Some.
      destruct (task_cases _ _ _ _ _ E) as [(-> & _ & _ & Hsd)|[(Es & -> & ->)|[(r & h & o & Es & Hh & Ho & -> & H)|(_ & -> & ->)]]].
      * right. exists (TK (t_mb t) st), b, n. cbn [ch tk]. by rewrite list_lookup_insert.
      * eapply bound_ch; try done; [|by rewrite list_lookup_insert by done; eexists]. rewrite list_lookup_insert by done. intros t' [= <-]. right. by split_and!.
      * eapply bound_ch; try done; [rewrite (await_touch _ _ _ _ Ho); intros [= E1]; by apply (apart_mb _ t t r (proj1 I _ _ Ht) (proj1 I _ _ Ht) Es)| |by rewrite list_lookup_insert by done; eexists].
        rewrite list_lookup_insert by done. intros t' [= <-]. right. split_and!; try done; [|by rewrite H]. intros q ->. unfold await_op in Ho. destruct (h_st h); done.
      * left. exists (TK (t_mb t) TDone). cbn [ch tk]. by rewrite list_lookup_insert.
    + destruct (task_other y j i t' t v s' st I Hne Hj Ht E) as [-> |(o & -> & Ho)].
      * right. exists t, b, n. cbn [ch tk]. by rewrite list_lookup_insert_ne.
      * eapply bound_ch; try done; [|rewrite list_lookup_insert_ne by done; intros t2 Ht2; left; congruence|rewrite list_lookup_insert_ne by done; by exists t].
        intros E1. apply Ho in E1. unfold of1 in E1. destruct (t_st t); try done; rewrite Nat.eqb_refl in E1; by rewrite ?orb_true_r in E1.
  - destruct (tk y !! j) as [t'|] eqn:Hj; [|done]. destruct (task_cancel t' (ch y)) as [[s' st]|] eqn:E; [|done].
    destruct (decide (j = i)) as [->|Hne].
    + left. exists (TK (t_mb t') st). cbn [ch tk]. rewrite list_lookup_insert by (by eapply lookup_lt_Some). split; [done|]. by destruct (cancel_cases _ _ _ _ E) as (_ & -> & _).
    + destruct (cancel_other y j i t' t s' st I Hne Hj Ht E) as [-> |(o & -> & Ho & _)].
      * right. exists t, b, n. cbn [ch tk]. by rewrite list_lookup_insert_ne.
      * eapply bound_ch; try done; [|rewrite list_lookup_insert_ne by done; intros t2 Ht2; left; congruence|rewrite list_lookup_insert_ne by done; by exists t].
        intros E1. apply Ho in E1. unfold of1 in E1. destruct (t_st t); try done; rewrite Nat.eqb_refl in E1; by rewrite ?orb_true_r in E1.
Qed.
Definition pend (s : state) : Prop := ∃ t p, thr s !! t = Some p ∧ UStopAll ∈ p.
Lemma api_thr o s : ∃ k, thr (api o s) = thr s ++ k.
Proof.
  destruct o; cbn [api]; repeat (dgoal; try (by exists []; rewrite app_nil_r)); cbv zeta; unfold add_addr; repeat dgoal;
    repeat (progress (prj; autorewrite with fr_thr)).
  all: first [by eexists|exists []; by rewrite app_nil_r].
Qed.
Lemma pend_step s o : pend s → pend (step s o) ∨ ∃ t, o = Step t ∧ next_action s t UStopAll.
Proof.
  intros (t & p & Ht & Hp). unfold step, pend. rewrite collect_thr. destruct (api_thr o s) as [k Ek].
  destruct o as [q| | | | | | | | | | | | | | | | | | | | | | | | | | |]; try (left; exists t, p; rewrite Ek; split; [by apply lookup_app_l_Some|done]).
  unfold do_step. destruct (decide (q = t)) as [->|Hne].
  - rewrite Ht. destruct p as [|u rest]; [by apply elem_of_nil in Hp|]. apply elem_of_cons in Hp as [<- |Hp].
    + right. exists t. split; [done|]. by exists rest.
    + left. pose proof (exec_thr u s) as Et. destruct (exec u s) as [s1 new]. cbn [fst] in Et. prj. rewrite Et. exists t, (new ++ rest).
      rewrite list_lookup_insert by (by eapply lookup_lt_Some). split; [done|]. apply elem_of_app. by right.
  - left. destruct (thr s !! q) as [[|u rest]|] eqn:Eq; try (by exists t, p). pose proof (exec_thr u s) as Et. destruct (exec u s) as [s1 new]. cbn [fst] in Et. prj. rewrite Et.
    exists t, p. by rewrite list_lookup_insert_ne.
Qed.
Definition all_told (n : nat) (y : sys) : Prop := n ≤ length (tk y) ∧ (pend (ch y) ∨ ∀ i, i < n → bound y i).
Lemma tk_len y l : length (tk y) ≤ length (tk (sys_step y l)).
Proof.
  destruct l as [o|h|j v|j]; cbn [sys_step]; repeat case_match; cbn [tk]; rewrite ?app_length, ?insert_length; lia.
Qed.
Lemma step_ch y l : (∃ o, ch (sys_step y l) = step (ch y) o ∧ ∀ t, o = Step t → l = SCall (Step t)) ∨ ch (sys_step y l) = ch y.
Proof.
  destruct l as [o|h|i v|i]; cbn [sys_step].
  - destruct (foreign y o); [|by right]. left. exists o. split; [done|]. by intros t ->.
  - right. repeat case_match; done.
  - destruct (tk y !! i) as [t|]; [|by right]. destruct (task_step t v (ch y)) as [[s' st]|] eqn:E; [|by right]. cbn [ch].
    destruct (task_cases _ _ _ _ _ E) as [(-> & _)|[(_ & -> & _)|[(r & h & o & E1 & Hh & Ho & -> & _)|(_ & -> & _)]]]; [by right|left..].
    + by eexists.
    + exists o. split; [done|]. intros q ->. unfold await_op in Ho. by destruct (h_st h).
    + by eexists.
  - destruct (tk y !! i) as [t|]; [|by right]. destruct (task_cancel t (ch y)) as [[s' st]|] eqn:E; [|by right]. cbn [ch].
    destruct (cancel_cases _ _ _ _ E) as (_ & _ & [[-> _]|(r & h & _ & _ & -> & _)]); [by right|left]. by eexists.
Qed.
Lemma told_step n y l : reachable (ch y) → SInv y → own y → qinv y → all_told n y → all_told n (sys_step y l).
Proof.
  intros Hrr I HH Q [Hn H]. pose proof (reachable_reach _ Hrr) as Hr. split; [pose proof (tk_len y l); lia|]. destruct H as [H|H]; [|right; intros i Hi; apply bound_step; auto].
  destruct (step_ch y l) as [(o & E & Eo)|E]; [|left; by rewrite E]. rewrite E.
  destruct (pend_step (ch y) o H) as [?|(t & -> & Hna)]; [by left|right]. intros i Hi. rewrite (Eo t eq_refl) in *. clear E Eo.
  destruct (lookup_lt_is_Some_2 (tk y) i ltac:(lia)) as [ti Hti]. assert (t_st ti = TDone ∨ t_st ti ≠ TDone) as [Hd|Hd] by (destruct (t_st ti); auto).
  - left. apply stops_step; [done..|]. exists ti. split; [done|]. unfold wst. by rewrite Hd.
  - right. destruct (tinv_mb _ _ (proj1 I _ _ Hti) Hd) as (x & Hx & Hs). exists ti, (h_bq x), (nbm (ch y)). cbn [sys_step foreign ch tk]. split_and!; try done.
    + apply mbq_keep; [done..|]. by exists x.
    + apply (c08_put (ch y) t (h_bq x) Hrr Hna). exists (t_mb ti), x. by rewrite Hs.
Qed.
Lemma bound_rest y i : sys_reachable y → own y → qinv y → (∀ l, ¬ inner y l) → bound y i → finished y i.
Proof.
  intros Hy HH Q Hn [H|(t & b & n & Ht & Hd & Hm & Hb)]; [by apply stops_rest|]. exfalso.
  destruct (rest_settled y Hy Hn) as [_ HS]. destruct (HS i t Ht) as [?|(r & h & Es & Hh & _ & _ & HB & _)]; [done|].
  destruct (proj2 Q i t r Ht Es) as (x & Hx & (x1 & Hx1 & _ & E1)). rewrite Hh in Hx. injection Hx as <-.
  destruct Hm as (x2 & Hx2 & _ & E2). rewrite Hx1 in Hx2. injection Hx2 as <-. rewrite E1 in E2. subst b. unfold backlog in HB. unfold bq_get in Hb. rewrite HB in Hb. by apply elem_of_nil in Hb.
Qed.
Lemma all_leads n y : sys_reachable y → own y → qinv y → all_told n y → leads (λ z, ∀ i, i < n → finished z i) y.
Proof.
  intros H1 H2 H3 H4. apply (leads_all (λ y, sys_reachable y ∧ own y ∧ qinv y ∧ all_told n y)); [by intros ? [? _]|..|done].
  - intros z l (Hz & HH & Q & HT) Hl. destruct (sys_reach z Hz) as [Hrr I]. pose proof (reachable_reach _ Hrr) as Hr. split_and!.
    + by apply sys_reachable_step.
    + apply own_step; try done. apply (inner_plain z l Hl).
    + by apply qinv_step.
    + by apply told_step.
  - intros z (Hz & HH & Q & [Hlen [Hp|HT]]) Hn; [|intros i Hi; apply bound_rest; auto]. exfalso. pose proof (rest_quiet z Hn) as Hq.
    destruct Hp as (t & p & Ht & Hp). apply Hq in Ht as ->. by apply elem_of_nil in Hp.
Qed.
Lemma sys_reachable_run y l : sys_reachable y → sys_reachable (sys_run y l).
Proof. intros H. induction l as [|x l IH] using rev_ind; [done|]. rewrite sys_run_snoc. by apply sys_reachable_step. Qed.
Lemma stops_run y l i : sys_reachable y → stops_at y i → stops_at (sys_run y l) i.
Proof.
  intros Hy H. induction l as [|x l IH] using rev_ind; [done|]. rewrite sys_run_snoc. destruct (sys_reach _ (sys_reachable_run y l Hy)) as [Hrr I]. by apply stops_step.
Qed.
Lemma stop_message y i r l : sys_reachable y → awaits y i r → got_stop (ch y) r → leads (λ z, finished z i) (sys_run y l).
Proof.
  intros Hy (t & Ht & Es) (h & a & Hh & Hs & Ha). apply told_stops; [by apply sys_reachable_run|]. apply stops_run; [done|]. exists t. split; [done|]. unfold wst. rewrite Es.
  exists h. split; [done|]. destruct Hs as [-> | ->], Ha as [-> |[n ->]]; done.
Qed.
Lemma stop_self y i r l : sys_reachable y → awaits y i r → in_handler (ch y) r → leads (λ z, finished z i) (sys_run y (SCall (AStopSelf r) :: l)).
Proof.
  intros Hy (t & Ht & Es) (h & a & Hh & Hs). change (sys_run y (SCall (AStopSelf r) :: l)) with (sys_run (sys_step y (SCall (AStopSelf r))) l).
  apply told_stops; [by apply sys_reachable_run, sys_reachable_step|]. apply stops_run; [by apply sys_reachable_step|]. exists t. cbn [sys_step foreign ch tk]. split; [done|].
  unfold wst. rewrite Es. destruct h as [b hs k w]. cbn [h_st] in Hs. subst hs. exists (HO b (HRun a) false w). unfold step. rewrite collect_hols. cbn [api]. rewrite Hh. prj.
  rewrite list_lookup_insert by (by eapply lookup_lt_Some). done.
Qed.
Lemma stop_everyone c l r l' : let y := sys_run (sys_init c) l in hands_off (l ++ l') → in_handler (ch y) r → 0 < strong_addresses (ch y) + strong_futures (ch y) →
  leads (λ z, ∀ i, i < length (tk y) → finished z i) (sys_run y (SCall (AStopAll r) :: l')).
Proof.
  intros y Hho (h & a & Hh & Hs) Hst.
  assert (hands_off l) as Hl by (intros h1 H1; apply (Hho h1), elem_of_app; by left).
  assert (∀ k, hands_off k → own (sys_run y (SCall (AStopAll r) :: k)) ∧ all_told (length (tk y)) (sys_run y (SCall (AStopAll r) :: k))) as HK.
  { intros k. induction k as [|x k IH] using rev_ind; intros Hk.
    - split.
      + change (sys_run y [SCall (AStopAll r)]) with (sys_step y (SCall (AStopAll r))). destruct (sys_reach y) as [Hrr I]; [by exists c, l|].
        apply own_step; [by apply reachable_reach|done|by apply own_run|done].
      + split; [done|]. left. destruct (sys_reach y) as [Hrr I]; [by exists c, l|]. pose proof (c20 (ch y) Hrr) as HT. cbn. unfold pend, step. rewrite collect_thr. cbn [api].
        rewrite Hh. destruct h as [b hs k w]. cbn [h_st] in Hs. subst hs. destruct (Nat.eqb_spec (txc (ch y)) 0) as [E0|E0]; [lia|]. prj.
        exists (length (thr (ch y))), [UStopAll; UTxDec]. rewrite lookup_app_r, Nat.sub_diag by lia. split; [done|]. by left.
    - destruct IH as [IH1 IH2]; [intros h1 H1; apply (Hk h1), elem_of_app; by left|]. rewrite app_comm_cons, sys_run_snoc. set (z := sys_run y (SCall (AStopAll r) :: k)) in *.
      assert (sys_reachable z) as Hz by (apply sys_reachable_run; by exists c, l). destruct (sys_reach z Hz) as [Hrr I].
      assert (qinv z) as Hqz by (destruct Hz as (c1 & l1 & ->); apply qinv_run).
      split; [apply own_step; [by apply reachable_reach|done..|]|by apply told_step]. intros h1 ->. apply (Hk h1), elem_of_app. right. by apply elem_of_list_singleton. }
  destruct (HK l') as [H1 H2]; [intros h1 H3; apply (Hho h1), elem_of_app; by right|].
  assert (sys_reachable (sys_run y (SCall (AStopAll r) :: l'))) as Hz by (apply sys_reachable_run; by exists c, l).
  apply all_leads; try done. destruct Hz as (c1 & l1 & ->). apply qinv_run.
Qed.
