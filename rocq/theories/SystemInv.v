(** The tasks and the channel fit together. *)
From stdpp Require Import base numbers list list_numbers.
From Coq Require Import Lia.
From Verif Require Import Prio Heap State Model HeapProofs Frame Lib InvBusy InvCount Effects InvMsg InvOne InvOne2 InvBc Mono Events Spec Bridge FinishSpec FinishProofs
  FinalC FinalG FinalI ClaimsB System SystemSpec SystemProofs.

(** ** Steps of the channel *)
Definition touched (o : op) : option nat :=
  match o with ADropHol r | APollRecv r | ADispatch r | ARun r | AFinish r _ => Some r | _ => None end.
Lemma collect_hols s : hols (collect s) = hols s.
Proof. unfold collect. destruct (chan_owned s); [done|]. by autorewrite with fr_hols. Qed.
Lemma collect_thr s : thr (collect s) = thr s.
Proof. unfold collect. destruct (chan_owned s); [done|]. by autorewrite with fr_thr. Qed.

Definition kept (x x' : holder) : Prop :=
  h_st x' = h_st x ∧ h_wk x' = h_wk x ∨ h_st x = HRecvBusy ∧ h_st x' ≠ HMailbox ∧ h_st x' ≠ HGone.
Lemma api_keep s o r x : hols s !! r = Some x → touched o ≠ Some r → ∃ x', hols (api o s) !! r = Some x' ∧ kept x x'.
Proof.
  intros Hx Ho. assert (kept x x) as HK by by left.
  destruct o; cbn [api touched] in *; repeat (dgoal; try by eauto); cbv zeta; unfold add_addr; repeat dgoal;
    repeat (progress (prj; autorewrite with fr_hols)); eauto.
  all: try (rewrite list_lookup_insert_ne by congruence; by eauto).
  - exists x. split; [by apply lookup_app_l_Some|done].
  - match goal with |- context [<[?q:=_]> _ !! r] => destruct (decide (q = r)) as [->|Hq] end; [|rewrite list_lookup_insert_ne by congruence; by eauto].
    rewrite list_lookup_insert by (by eapply lookup_lt_Some). eexists. split; [done|]. simplify_eq. by left.
Qed.
Lemma exec_keep s t u rest s1 new r x : reach s → thr s !! t = Some (u :: rest) → exec u s = (s1, new) → EvPanic ∉ log s1 →
  hols s !! r = Some x → ∃ x', hols s1 !! r = Some x' ∧ kept x x'.
Proof.
  intros Hr Ht E Hp Hx. assert (kept x x) as HK by by left. pose proof (busyR_at s t u rest r Hr Ht) as HB.
  exec_cases u E; unfold panic_recv in Hp; repeat (progress (prj; autorewrite with fr_hols)); eauto.
  1: { exists x. split; [by apply lookup_app_l_Some|done]. }
  all: try (exfalso; apply Hp; by left).
  all: match goal with |- context [alter _ ?q _ !! ?rr] => destruct (decide (q = rr)) as [->|Hq]; [|rewrite list_lookup_alter_ne by done; by eauto] end.
  all: rewrite list_lookup_alter, Hx; eexists; split; [done|].
  all: destruct HB as (hh & Hhh & Hbb); [cbn; by rewrite Nat.eqb_refl|]; simplify_eq; by right.
Qed.
Lemma hol_keep s o r x : reach s → hols s !! r = Some x → touched o ≠ Some r → ∃ x', hols (step s o) !! r = Some x' ∧ kept x x'.
Proof.
  intros Hr Hx Ho. unfold step. rewrite collect_hols. destruct o as [t| | | | | | | | | | | | | | | | | | | | | | | | | | |]; try (by apply api_keep).
  pose proof (no_panic_ev _ (reach_step s t Hr)) as [Hp _]. revert Hp. unfold do_step.
  destruct (thr s !! t) as [[|u rest]|] eqn:Ht; try (intros _; exists x; split; [done|by left]). destruct (exec u s) as [s1 new] eqn:E. prj. intros Hp. by eapply exec_keep.
Qed.

Definition FLc (r : nat) (b : bool) (s : state) : nat := msum (g_fl r b) s + Σ (e_fl r b) (log s).
Lemma free_FLc r b s : FLc r b (free_chan s) = FLc r b s.
Proof.
  unfold FLc. destruct (free_evs s) as (k & -> & Hk). rewrite sum_list_with_app, (msum_eq _ s) by (autorewrite with fr_thr; done).
  rewrite (sum_zero _ k); [lia|]. intros e He. by destruct (Hk _ He) as (? & ? & -> & _).
Qed.
Lemma collect_FLc r b s : FLc r b (collect s) = FLc r b s.
Proof. unfold collect. destruct (chan_owned s); [done|apply free_FLc]. Qed.
Lemma api_FLc r b o s : FLc r b s ≤ FLc r b (api o s) ∧ (touched o ≠ Some r → FLc r b (api o s) = FLc r b s).
Proof.
  unfold FLc. assert (Σ (e_fl r b) (log (api o s)) = Σ (e_fl r b) (log s)) as ->.
  { destruct (api_evs o s) as [-> |(e & -> & He)]; [done|]. cbn. by destruct e. }
  assert (msum (g_fl r b) s ≤ msum (g_fl r b) (api o s)) as H.
  { destruct o; cbn [api]; repeat (dgoal; try done); cbv zeta; unfold add_addr, msum, call, emit; repeat dgoal; repeat (progress (prj; autorewrite with fr_thr)); rewrite ?sum_snoc; lia. }
  split; [lia|]. intros Ho. destruct (flow_api r b o s) as [Hle|[(q & a & k & w & -> & _)|(v & q & a & k & w & -> & _)]]; [lia|done|done].
Qed.
Lemma step_FLc r b o s : FLc r b s ≤ FLc r b (step s o) ∧ (touched o ≠ Some r → FLc r b (step s o) = FLc r b s).
Proof.
  unfold step. rewrite collect_FLc. destruct o as [t| | | | | | | | | | | | | | | | | | | | | | | | | | |]; try (by apply api_FLc).
  unfold do_step. destruct (thr s !! t) as [[|u rest]|] eqn:Ht; try done. destruct (exec u s) as [s1 new] eqn:E.
  assert (thr s1 = thr s) as Hthr by (pose proof (exec_thr u s) as H; by rewrite E in H).
  pose proof (flow_exec r b s t u rest s1 new Ht E Hthr) as H. unfold FLc in *. prj. split; [lia|intros _; lia].
Qed.
Lemma flow_facts s r b : reachable s → 0 < FLc r b s → FLc r (negb b) s = 0 ∧ ∃ h, hols s !! r = Some h ∧ h_st h = HGone.
Proof.
  intros (c & ops & ->) H. destruct (flow_run c ops r) as (_ & _ & _ & I). pose proof (I b H) as [H1 H2]. split; [|done].
  destruct (decide (0 < FLc r (negb b) (run (init c) ops))) as [H3|]; [|lia]. destruct (I (negb b) H3) as [H4 _]. destruct b; cbn in *; intuition congruence.
Qed.

(** ** The invariant *)
Definition mb (s : state) (h : nat) : Prop := ∃ x, hols s !! h = Some x ∧ h_st x = HMailbox.
Definition aw (s : state) (r : nat) : Prop := ∃ x, hols s !! r = Some x ∧ h_st x ≠ HMailbox ∧ (h_st x = HGone → ∃ b, 0 < FLc r b s).
Definition tinv (s : state) (t : task) : Prop :=
  match t_st t with TDone => True | TAwait r => mb s (t_mb t) ∧ aw s r | _ => mb s (t_mb t) end.
Definition apart (t t' : task) : Prop :=
  (t_st t ≠ TDone → t_st t' ≠ TDone → t_mb t ≠ t_mb t') ∧ ∀ r, t_st t = TAwait r → t_st t' ≠ TAwait r.
Definition SInv (y : sys) : Prop :=
  (∀ i t, tk y !! i = Some t → tinv (ch y) t) ∧
  (∀ i j t t', i ≠ j → tk y !! i = Some t → tk y !! j = Some t' → apart t t').
Definition of1 (t : task) (r : nat) : bool :=
  match t_st t with TDone => false | TAwait q => (q =? r) || (t_mb t =? r) | _ => t_mb t =? r end.

Lemma mb_keep s o h : reach s → mb s h → touched o ≠ Some h → mb (step s o) h.
Proof.
  intros Hr (x & Hx & Hs) Ho. destruct (hol_keep s o h x Hr Hx Ho) as (x' & Hx' & [[E _]|(E & _)]); [|by rewrite Hs in E]. exists x'. by rewrite E.
Qed.
Lemma aw_keep s o r : reach s → aw s r → touched o ≠ Some r → aw (step s o) r.
Proof.
  intros Hr (x & Hx & Hs & HF) Ho. destruct (hol_keep s o r x Hr Hx Ho) as (x' & Hx' & [[E _]|(E & E2 & E3)]); exists x'; (split; [done|]).
  - rewrite E. split; [done|]. intros HG. destruct (HF HG) as [b Hb]. exists b. pose proof (step_FLc r b o s). lia.
  - split; [done|]. by intros ?.
Qed.
Lemma tinv_keep s o t : reach s → tinv s t → (∀ r, touched o = Some r → of1 t r = false) → tinv (step s o) t.
Proof.
  intros Hr Ht Ho. unfold tinv, of1 in *.
  assert (∀ r, touched o = Some r → t_st t ≠ TDone → t_mb t ≠ r) as H1.
  { intros r Hor Hd. specialize (Ho r Hor). destruct (t_st t); try (by apply Nat.eqb_neq); try done. apply orb_false_iff in Ho as [_ Ho]. by apply Nat.eqb_neq. }
  assert (t_st t ≠ TDone → mb s (t_mb t) → mb (step s o) (t_mb t)) as HM.
  { intros Hd Hm. apply mb_keep; [done..|]. intros E. by apply (H1 _ E Hd). }
  destruct (t_st t) eqn:Es; try (by apply HM); [|done]. destruct Ht as [Ht1 Ht2]. split; [by apply HM|]. apply aw_keep; [done..|].
  intros E. specialize (Ho _ E). by rewrite Nat.eqb_refl in Ho.
Qed.
Lemma bq_some s r x : reach s → hols s !! r = Some x → h_st x ≠ HGone → ∃ q, bqueues s !! h_bq x = Some q.
Proof.
  intros Hr Hx Hs. pose proof (reach_bq s Hr (h_bq x)) as H. pose proof (sum_lookup (h_own (h_bq x)) _ _ _ Hx) as H2.
  unfold h_own in H2 at 1. rewrite Nat.eqb_refl in H2. destruct (bqueues s !! h_bq x) as [q|] eqn:E; [by eexists|].
  rewrite (at_none _ _ _ E) in H. destruct (h_st x); try done; lia.
Qed.
Lemma next_new s h : reach s → mb s h → ∃ b, hols (step s (ANext h)) !! length (hols s) = Some (HO b HRecvNew true 0).
Proof.
  intros Hr (x & Hx & Hs). destruct (bq_some s h x Hr Hx ltac:(by rewrite Hs)) as [q Hq]. unfold step. rewrite collect_hols. cbn [api].
  rewrite Hx, Hs. cbn [is_mailbox]. rewrite Hq. prj. exists (h_bq x). rewrite lookup_app_r, Nat.sub_diag by lia. done.
Qed.

(** What a task does. *)
Definition await_op (v : nat) (h : holder) (r : nat) : option op :=
  match h_st h with
  | HRecvNew | HRecvWait _ => Some (APollRecv r) | HMsg _ => Some (ADispatch r) | HDispNew _ => Some (ARun r) | HRun _ => Some (AFinish r v)
  | _ => None
  end.
Lemma task_cases t v s s' st : task_step t v s = Some (s', st) →
  (s' = s ∧ (∀ r, st ≠ TAwait r) ∧ t_st t ≠ TDone ∧ st ≠ TDone) ∨
  (t_st t = TLoop ∧ s' = step s (ANext (t_mb t)) ∧ st = TAwait (length (hols s))) ∨
  (∃ r h o, t_st t = TAwait r ∧ hols s !! r = Some h ∧ await_op v h r = Some o ∧ s' = step s o ∧ st = TAwait r) ∨
  (t_st t = TDrop ∧ s' = step s (ADropHol (t_mb t)) ∧ st = TDone).
Proof.
  unfold task_step. destruct (t_st t) as [| |r| | |] eqn:Et.
  - intros [= <- <-]. left. split_and!; try done; by destruct (v =? 0).
  - intros [= <- <-]. by right; left.
  - destruct (hols s !! r) as [h|] eqn:Hh; [|done]. unfold await_op.
    destruct (h_st h) eqn:Es; try done.
    + intros [= <- <-]. right; right; left. exists r, h, (APollRecv r). by rewrite Es.
    + destruct (existsb _ _); [|done]. intros [= <- <-]. right; right; left. exists r, h, (APollRecv r). by rewrite Es.
    + intros [= <- <-]. right; right; left. exists r, h, (ADispatch r). by rewrite Es.
    + intros [= <- <-]. right; right; left. exists r, h, (ARun r). by rewrite Es.
    + intros [= <- <-]. right; right; left. exists r, h, (AFinish r v). by rewrite Es.
    + destruct (flow_of _ _) as [[]|]; [| |done]; intros [= <- <-]; by left.
  - intros [= <- <-]. by left.
  - intros [= <- <-]. by do 3 right.
  - done.
Qed.
Lemma cancel_cases t s s' st : task_cancel t s = Some (s', st) → t_st t ≠ TDone ∧ st = TDrop ∧
  (s' = s ∧ (t_st t = TStart ∨ t_st t = TStop) ∨
   ∃ r h, t_st t = TAwait r ∧ hols s !! r = Some h ∧ s' = step s (ADropHol r) ∧ ((∃ o, h_st h = HRecvWait o) ∨ ∃ a, h_st h = HRun a)).
Proof.
  unfold task_cancel. destruct (t_st t) as [| |r| | |] eqn:Et; try done.
  - intros [= <- <-]. do 2 (split; [done|]). left. split; [done|]. auto.
  - destruct (hols s !! r) as [h|] eqn:Hh; [|done]. destruct (h_st h) eqn:Es; try done; intros [= <- <-]; (do 2 (split; [done|])); right; exists r, h; split_and!; eauto.
  - intros [= <- <-]. do 2 (split; [done|]). left. split; [done|]. auto.
Qed.
Lemma await_touch v h r o : await_op v h r = Some o → touched o = Some r.
Proof. unfold await_op. destruct (h_st h); by intros [= <-]. Qed.
Lemma await_aw s v h r o : hols s !! r = Some h → await_op v h r = Some o → aw (step s o) r.
Proof.
  intros Hh Ho. unfold aw, step. rewrite collect_hols. destruct h as [b st k w].
  assert (r < length (hols s)) as Hl by by eapply lookup_lt_Some.
  destruct st; cbn in Ho; try done; injection Ho as <-; cbn [api]; rewrite Hh; try (destruct a as [|[]|]).
  all: prj; rewrite list_lookup_insert by done; eexists; split; [done|]; cbn; (split; [done|]); try done; intros _.
  all: match goal with |- ∃ b, 0 < FLc ?r b (collect (call (?p ++ ?q) ?x)) => idtac | |- ∃ b, 0 < FLc ?r b (collect (call ?p ?x)) => idtac end.
  all: try (exists true; rewrite collect_FLc; unfold FLc; rewrite msum_call; cbn; unfold isn; rewrite Nat.eqb_refl; lia).
  all: exists (negb k); rewrite collect_FLc; unfold FLc; rewrite msum_call; cbn; rewrite Bool.eqb_reflx; unfold isn; rewrite Nat.eqb_refl; lia.
Qed.
Lemma apart_mb s t t' r : tinv s t → tinv s t' → t_st t' = TAwait r → t_st t ≠ TDone → t_mb t ≠ r.
Proof.
  intros H1 H2 Hr Hd E. assert (mb s (t_mb t)) as (x & Hx & Hs) by (unfold tinv in H1; destruct (t_st t); try done; by destruct H1).
  unfold tinv in H2. rewrite Hr in H2. destruct H2 as [_ (x' & Hx' & Hs' & _)]. rewrite <-E in Hx'. congruence.
Qed.
Lemma tinv_mb s t : tinv s t → t_st t ≠ TDone → mb s (t_mb t).
Proof. unfold tinv. destruct (t_st t); try done. tauto. Qed.
Lemma move_inv y i t s' st : SInv y → tk y !! i = Some t → t_st t ≠ TDone →
  (∀ j t', j ≠ i → tk y !! j = Some t' → apart t t' → apart t' t → tinv (ch y) t' → tinv s' t') → tinv s' (TK (t_mb t) st) →
  (∀ r, st = TAwait r → t_st t = TAwait r ∨ r = length (hols (ch y))) → SInv (SY s' (<[i := TK (t_mb t) st]> (tk y))).
Proof.
  intros [I1 I2] Ht Hd P0 P2 P3. set (s := ch y) in *. pose proof (I1 _ _ Ht) as HT.
  assert (∀ j t', j ≠ i → tk y !! j = Some t' → apart t t' ∧ apart t' t ∧ tinv s t') as HOt by (intros j t' Hj Hj'; split_and!; eauto).
  assert (∀ j t', j ≠ i → tk y !! j = Some t' → tinv s' t') as P1 by (intros j t' Hj Hj'; destruct (HOt j t' Hj Hj') as (? & ? & ?); by eapply P0).
  assert (∀ j t', j ≠ i → tk y !! j = Some t' → apart (TK (t_mb t) st) t' ∧ apart t' (TK (t_mb t) st)) as P4.
  { intros j t' Hj Hj'. destruct (HOt j t' Hj Hj') as (A1 & A2 & A3). unfold apart in *. cbn.
    assert (∀ r, st = TAwait r → t_st t' ≠ TAwait r) as Hx.
    { intros r E1 E2. destruct (P3 r E1) as [E3|E3]; [by apply (proj2 A1 r E3)|]. unfold tinv in A3. rewrite E2 in A3. destruct A3 as [_ (x & Hx & _)].
      apply lookup_lt_Some in Hx. lia. }
    split_and!.
    - intros _ Hd'. by apply A1.
    - done.
    - intros Hd' _. by apply A2.
    - intros r E1 E2. by apply (Hx r). }
  split; cbn [ch tk].
  - intros j t' Hj. destruct (decide (j = i)) as [->|Hne].
    + rewrite list_lookup_insert in Hj by (by eapply lookup_lt_Some). by injection Hj as <-.
    + rewrite list_lookup_insert_ne in Hj by done. by eapply P1.
  - intros j k t1 t2 Hjk Hj Hk. destruct (decide (j = i)) as [->|Hji].
    + rewrite list_lookup_insert in Hj by (by eapply lookup_lt_Some). injection Hj as <-. rewrite list_lookup_insert_ne in Hk by done. by apply (P4 k).
    + rewrite list_lookup_insert_ne in Hj by done. destruct (decide (k = i)) as [->|Hki].
      * rewrite list_lookup_insert in Hk by (by eapply lookup_lt_Some). injection Hk as <-. by apply (P4 j).
      * rewrite list_lookup_insert_ne in Hk by done. by eapply (I2 j k).
Qed.
Lemma task_inv y i v t s' st : reach (ch y) → SInv y → tk y !! i = Some t → task_step t v (ch y) = Some (s', st) → SInv (SY s' (<[i := TK (t_mb t) st]> (tk y))).
Proof.
  intros Hr [I1 I2] Ht E. set (s := ch y) in *. pose proof (I1 _ _ Ht) as HT.
  assert (t_st t ≠ TDone) as Hd by (intros E1; unfold task_step in E; by rewrite E1 in E).
  pose proof (tinv_mb _ _ HT Hd) as HM.
  assert (∀ j t', j ≠ i → tk y !! j = Some t' → apart t t' ∧ apart t' t ∧ tinv s t') as HOt by (intros j t' Hj Hj'; split_and!; eauto).
  assert ((∀ j t', j ≠ i → tk y !! j = Some t' → tinv s' t') ∧ tinv s' (TK (t_mb t) st) ∧ (∀ r, st = TAwait r → t_st t = TAwait r ∨ r = length (hols s))) as (P1 & P2 & P3).
  { destruct (task_cases _ _ _ _ _ E) as [(-> & H1 & _ & H2)|[(E1 & -> & ->)|[(r & h & o & E1 & Hh & Ho & -> & ->)|(E1 & -> & ->)]]].
    - split_and!; [intros; by eapply HOt|unfold tinv; cbn; destruct st; try done; by destruct (H1 r)|intros r ->; by destruct (H1 r)].
    - split_and!.
      + intros j t' Hj Hj'. apply tinv_keep; [done|by eapply HOt|done].
      + unfold tinv. cbn. split; [by apply mb_keep|]. destruct (next_new s (t_mb t) Hr HM) as [b Hb]. eexists. split; [exact Hb|]. by split.
      + intros r [= <-]. by right.
    - pose proof (await_touch _ _ _ _ Ho) as Hto. split_and!.
      + intros j t' Hj Hj'. destruct (HOt j t' Hj Hj') as (A1 & A2 & A3). apply tinv_keep; [done..|]. intros q Hq. rewrite Hto in Hq. injection Hq as <-.
        unfold of1. assert (t_st t' ≠ TDone → (t_mb t' =? r) = false) as Hmb by (intros Hd'; apply Nat.eqb_neq; by apply (apart_mb s t' t r A3 HT E1 Hd')).
        destruct (t_st t') eqn:E2; try (by apply Hmb); [|done]. rewrite Hmb by done. rewrite orb_false_r. apply Nat.eqb_neq. intros ->.
        destruct A1 as [_ A1]. by apply (A1 r E1).
      + unfold tinv. cbn. split; [|by eapply await_aw]. apply mb_keep; [done..|]. rewrite Hto. intros [= E2]. symmetry in E2. by apply (apart_mb s t t r HT HT E1 Hd) in E2.
      + intros q [= <-]. by left.
    - split_and!; [|done|done]. intros j t' Hj Hj'. destruct (HOt j t' Hj Hj') as (A1 & A2 & A3). apply tinv_keep; [done..|]. cbn. intros q [= <-].
      unfold of1. assert (t_st t' ≠ TDone → (t_mb t' =? t_mb t) = false) as Hmb by (intros Hd'; apply Nat.eqb_neq; destruct A2 as [A2 _]; by apply A2).
      destruct (t_st t') eqn:E2; try (by apply Hmb); [|done]. rewrite Hmb by done. rewrite orb_false_r. apply Nat.eqb_neq. intros E3. symmetry in E3. by apply (apart_mb s t t' r HT A3 E2 Hd) in E3. }
  apply move_inv; try done. intros j t' Hj Hj' _ _ _. by eapply P1.
Qed.
Lemma cancel_inv y i t s' st : reach (ch y) → SInv y → tk y !! i = Some t → task_cancel t (ch y) = Some (s', st) → SInv (SY s' (<[i := TK (t_mb t) st]> (tk y))).
Proof.
  intros Hr I Ht E. pose proof (proj1 I _ _ Ht) as HT. destruct (cancel_cases _ _ _ _ E) as (Hd & -> & HC). pose proof (tinv_mb _ _ HT Hd) as HM.
  destruct HC as [[-> _]|(r & h & Es & Hh & -> & _)]; (apply move_inv; [done..| | |done]).
  - done.
  - done.
  - intros j t' Hj Hj' A1 A2 A3. apply tinv_keep; [done..|]. intros q [= <-].
    unfold of1. assert (t_st t' ≠ TDone → (t_mb t' =? r) = false) as Hmb by (intros Hd'; apply Nat.eqb_neq; by apply (apart_mb (ch y) t' t r A3 HT Es Hd')).
    destruct (t_st t') eqn:E2; try (by apply Hmb); [|done]. rewrite Hmb by done. rewrite orb_false_r. apply Nat.eqb_neq. intros ->.
    destruct A1 as [_ A1]. by apply (A1 r Es).
  - unfold tinv. cbn. apply mb_keep; [done..|]. cbn. intros [= E2]. symmetry in E2. by apply (apart_mb (ch y) t t r HT HT Es Hd) in E2.
Qed.
Lemma of_task_1 y r i t : of_task y r = false → tk y !! i = Some t → of1 t r = false.
Proof.
  intros H Ht. destruct (of1 t r) eqn:E; [|done]. exfalso. enough (of_task y r = true) by congruence. apply existsb_exists. exists t.
  split; [apply elem_of_list_In; by eapply elem_of_list_lookup_2|done].
Qed.
Lemma sys_inv y l : reach (ch y) → SInv y → SInv (sys_step y l).
Proof.
  intros Hr I. destruct l as [o|h|i v|i]; cbn [sys_step].
  - destruct (foreign y o) eqn:Hf; [|done]. destruct I as [I1 I2]. split; cbn [ch tk]; [|done]. intros i t Ht. apply tinv_keep; [done|by eapply I1|].
    intros r Ho. eapply of_task_1; [|done]. destruct o; try done; cbn in Ho, Hf; injection Ho as <-; by apply negb_true_iff.
  - destruct (hols (ch y) !! h) as [[b [] k w]|] eqn:Hh; try done. destruct (of_task y h) eqn:Ho; [done|].
    assert (∀ i t, tk y !! i = Some t → t_st t ≠ TDone → t_mb t ≠ h) as Hn.
    { intros i t Ht Hd E. pose proof (of_task_1 y h i t Ho Ht) as H. unfold of1 in H. subst h. destruct (t_st t); rewrite ?Nat.eqb_refl, ?orb_true_r in H; done. }
    destruct I as [I1 I2]. split; cbn [ch tk].
    + intros i t [Ht|[_ Ht]]%lookup_app_Some; [by eapply I1|]. destruct (i - _); [|done]. injection Ht as <-. unfold tinv. cbn. by eexists.
    + assert (∀ i t, tk y !! i = Some t → apart t (TK h TStart) ∧ apart (TK h TStart) t) as Ha.
      { intros i t Ht. unfold apart. cbn. split_and!; try done; intros; [by eapply Hn|intros E; symmetry in E; by eapply Hn]. }
      intros i j t t' Hij [Ht|[Hli Ht]]%lookup_app_Some [Ht'|[Hlj Ht']]%lookup_app_Some; [by eapply (I2 i j)|..].
      * destruct (j - _); [|done]. injection Ht' as <-. by eapply Ha.
      * destruct (i - _); [|done]. injection Ht as <-. by eapply Ha.
      * destruct (i - _) eqn:E1; [|done]. destruct (j - _) eqn:E2; [|done]. lia.
  - destruct (tk y !! i) as [t|] eqn:Ht; [|done]. destruct (task_step t v (ch y)) as [[s' st]|] eqn:E; [|done]. by eapply task_inv.
  - destruct (tk y !! i) as [t|] eqn:Ht; [|done]. destruct (task_cancel t (ch y)) as [[s' st]|] eqn:E; [|done]. by eapply cancel_inv.
Qed.
Lemma ch_step y l : ch (sys_step y l) = ch y ∨ ∃ o, ch (sys_step y l) = step (ch y) o.
Proof.
  destruct l as [o|h|i v|i]; cbn [sys_step].
  - destruct (foreign y o); eauto.
  - repeat case_match; eauto.
  - destruct (tk y !! i) as [t|]; [|by left]. destruct (task_step t v (ch y)) as [[s' st]|] eqn:E; [|by left]. cbn [ch].
    destruct (task_cases _ _ _ _ _ E) as [(-> & _)|[(_ & -> & _)|[(? & ? & ? & _ & _ & _ & -> & _)|(_ & -> & _)]]]; eauto.
  - destruct (tk y !! i) as [t|]; [|by left]. destruct (task_cancel t (ch y)) as [[s' st]|] eqn:E; [|by left]. cbn [ch].
    destruct (cancel_cases _ _ _ _ E) as (_ & _ & [[-> _]|(? & ? & _ & _ & -> & _)]); eauto.
Qed.
Lemma sys_run_snoc y l x : sys_run y (l ++ [x]) = sys_step (sys_run y l) x.
Proof. apply fold_left_app. Qed.
Lemma sys_reach y : sys_reachable y → reachable (ch y) ∧ SInv y.
Proof.
  intros (c & l & ->). induction l as [|x l [IH1 IH2]] using rev_ind.
  - split; [by exists c, []|]. by split.
  - rewrite sys_run_snoc. split; [|by apply sys_inv; [apply reachable_reach|]].
    destruct (ch_step (sys_run (sys_init c) l) x) as [-> |[o ->]]; [done|]. destruct IH1 as (c' & ops & ->). exists c', (ops ++ [o]). by rewrite run_snoc.
Qed.
