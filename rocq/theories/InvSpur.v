(** No waker is woken twice, or while what its future waits for has not happened. *)
From stdpp Require Import base numbers list list_numbers.
From Coq Require Import Lia.
From Verif Require Import Prio Heap State Model Frame Lib InvBusy Effects InvMsg InvOne InvWs InvBc InvPoll.

(** ** Where a waker can be *)
Definition kw (w : nat) (k : option nat) : nat := match k with Some x => isn w x | None => 0 end.
Definition kO (w : nat) (x : one) : nat := match o_st x with OEmpty k => kw w k | _ => 0 end.
Definition kC {A} (w : nat) (x : wcell A) : nat := match wc_st x with WActive k _ => kw w k | _ => 0 end.
Definition kR (w : nat) (x : rep) : nat := match rp_st x with REmpty k => kw w k | _ => 0 end.
Definition kL (w : nat) (x : listener) : nat := if ls_notified x then 0 else kw w (ls_wk x).
Definition kH (w : nat) (x : holder) : nat := match h_st x with HRecvBusy => isn w (h_wk x) | _ => 0 end.
Definition kS (w : nat) (x : sfut) : nat := match sf_st x with SBusy => isn w (sf_wk x) | _ => 0 end.
Definition kX (w : nat) (x : rcv) : nat := match rc_st x with XBusy => isn w (rc_wk x) | _ => 0 end.
Definition stored (w : nat) (s : state) : nat :=
  Σ (kO w) (ones s) + Σ (kC w) (cells1 s) + Σ (kC w) (cellsA s) + Σ (kR w) (reps s) + Σ (kL w) (lsts s) + Σ (isn w) (wakes s).
Definition polled (w : nat) (s : state) : nat := Σ (kH w) (hols s) + Σ (kS w) (sfs s) + Σ (kX w) (rcvs s).

Global Arguments stored : simpl never.
Global Arguments kH _ _ /. Global Arguments kS _ _ /. Global Arguments kX _ _ /.
Section stored.
Context (w : nat).
Notation st := (stored w).
Lemma st_eq s s' : ones s' = ones s → cells1 s' = cells1 s → cellsA s' = cellsA s → reps s' = reps s → lsts s' = lsts s → wakes s' = wakes s → st s' = st s.
Proof. unfold stored. by intros -> -> -> -> -> ->. Qed.
Lemma st_wake k s : st (wake k s) = st s + kw w k.
Proof. unfold stored, wake. destruct k; cbn; lia. Qed.
Lemma st_hst r x s : st (set_hst r x s) = st s.
Proof. unfold set_hst. by case_match. Qed.
Lemma st_sst r x s : st (set_sst r x s) = st s.
Proof. unfold set_sst. by case_match. Qed.
Lemma st_bq b h s : st (bq_put b h s) = st s.
Proof. unfold bq_put. by case_match. Qed.
Lemma st_close_reply m s : st (close_reply m s) ≤ st s.
Proof.
  unfold close_reply. destruct (reps s !! m) as [[rx [k| | |]]|] eqn:E; try lia. rewrite st_wake. unfold stored; cbn.
  pose proof (sum_insert (kR w) _ _ _ (RP rx RClosed) E) as H. cbn in H. lia.
Qed.
Lemma st_drop y m s : st (drop_umsg y m s) ≤ st s.
Proof. unfold drop_umsg. apply st_close_reply. Qed.
Lemma st_fold {B} (f : state → B → state) l s : (∀ s x, st (f s x) ≤ st s) → st (fold_left f l s) ≤ st s.
Proof. intros H. revert s; induction l as [|x l IH]; intros s; [done|]. cbn. etrans; [apply IH|apply H]. Qed.
Lemma st_drops y l s : st (drop_umsgs y l s) ≤ st s.
Proof. apply st_fold. intros. apply st_drop. Qed.
Lemma st_close1 s c : st (close_handle1 s c) ≤ st s.
Proof.
  unfold close_handle1. destruct (cells1 s !! c) as [[[] [k m| |]]|] eqn:E; try lia. etrans; [apply st_drop|]. rewrite st_wake. unfold stored; cbn.
  pose proof (sum_insert (kC w) _ _ _ (WC true WClosed) E) as H. cbn in H. lia.
Qed.
Lemma st_closeA s c : st (close_handleA s c) ≤ st s.
Proof.
  unfold close_handleA. destruct (cellsA s !! c) as [[[] [k m| |]]|] eqn:E; try lia. rewrite st_wake. unfold stored; cbn.
  pose proof (sum_insert (kC w) _ _ _ (WC true WClosed) E) as H. cbn in H. lia.
Qed.
Lemma st_one_send o c s : st (one_send o c s).1 ≤ st s.
Proof.
  unfold one_send. destruct (ones s !! o) as [[[] [k| | |]]|] eqn:E; cbn [fst]; try lia. rewrite st_wake. unfold stored; cbn.
  pose proof (sum_insert (kO w) _ _ _ (ON true (OFull c)) E) as H. cbn in H. lia.
Qed.
Lemma st_close_one s o : st (close_one s o) ≤ st s.
Proof.
  unfold close_one. destruct (ones s !! o) as [[rx [k| | |]]|] eqn:E; try lia. rewrite st_wake. unfold stored; cbn.
  pose proof (sum_insert (kO w) _ _ _ (ON rx OClosed) E) as H. cbn in H. lia.
Qed.
Lemma st_fulfill ws m s : st (fulfill ws m s).1 ≤ st s.
Proof.
  revert s; induction ws as [|o ws IH]; intros s; simpl; [done|].
  pose proof (st_one_send o (CNewMsg m) s) as H. destruct (one_send o (CNewMsg m) s) as [s' []]; cbn [fst] in *; [done|]. etrans; [apply IH|done].
Qed.
Lemma take_kC {A} (key : A → prio) n cs ws cs' ws' r : try_take key n cs ws = (cs', ws', r) →
  Σ (kC w) cs' + (match r with Some (_, k) => kw w k | None => 0 end) ≤ Σ (kC w) cs.
Proof.
  revert cs ws; induction n as [|n IH]; intros cs ws; simpl; [intros [= <- <- <-]; lia|].
  destruct (find_remove key cs ws) as [ws1 [c|]]; [|intros [= <- <- <-]; lia].
  unfold take_message. destruct (cs !! c) as [[[] [k m| |]]|] eqn:E.
  1: intros [= <- <- <-]; pose proof (sum_insert (kC w) _ _ _ (WC true WDelivered) E) as H; cbn in H; lia.
  1,2: intros H%IH; pose proof (sum_insert (kC w) _ _ _ (WC true WDelivered) E) as H2; cbn in H2; lia.
  all: intros H%IH; lia.
Qed.
Lemma st_take1 s : st (take_waiting1 s).1 ≤ st s.
Proof.
  unfold take_waiting1. destruct (try_take _ _ _ _) as [[cs ws] r] eqn:E. apply take_kC in E.
  destruct r as [[m k]|]; cbn [fst]; unfold emit; [change (st (set_log ?l ?x)) with (st x); rewrite st_wake|]; unfold stored; cbn; lia.
Qed.
Lemma st_takeA s : st (take_waitingA s).1 ≤ st s.
Proof.
  unfold take_waitingA. destruct (try_take _ _ _ _) as [[cs ws] r] eqn:E. apply take_kC in E.
  destruct r as [[m k]|]; cbn [fst]; [rewrite st_wake|]; unfold stored; cbn; lia.
Qed.
Lemma st_bcast m s : st (send_broadcast m s) ≤ st s.
Proof.
  unfold send_broadcast. cbv zeta. unfold emit. change (st (set_log ?l ?x)) with (st x). change (st (set_tail ?l ?x)) with (st x).
  etrans; [apply st_fold; intros; apply st_one_send|]. change (st (set_wrx ?l ?x)) with (st x). change (st (set_bqs ?l ?x)) with (st x).
  apply st_fold. intros. by rewrite st_bq.
Qed.
Lemma st_pop1 s : st (pop_unicast s).1 ≤ st s.
Proof.
  unfold pop_unicast. destruct (heap_pop _ _) as [[m h]|]; [|done]. cbv zeta. destruct (unicast_full _); [done|].
  pose proof (st_take1 (set_uq h s)) as H. destruct (take_waiting1 (set_uq h s)) as [s2 [m2|]]; done.
Qed.
Lemma st_popA b s : st (pop_broadcast b s).1 ≤ st s.
Proof.
  unfold pop_broadcast. destruct (heap_pop _ _) as [[m h]|]; [|done]. cbv zeta. change (st s) with (st s).
  assert (st (set_tail (longest_broadcast_queue (bq_put b h s)) (bq_put b h s)) = st s) as E by (etrans; [|apply (st_bq b h)]; done).
  destruct (broadcast_full _); [cbn [fst]; lia|].
  pose proof (st_takeA (set_tail (longest_broadcast_queue (bq_put b h s)) (bq_put b h s))) as H.
  destruct (take_waitingA _) as [s2 [m2|]]; cbn [fst] in *; [pose proof (st_bcast m2 s2)|]; lia.
Qed.
Lemma wakes_lsts l s : st (fold_left (λ s l, if ls_notified l then s else wake (ls_wk l) s) l s) = st s + Σ (kL w) l.
Proof.
  revert s; induction l as [|x l IH]; intros s; cbn; [lia|]. rewrite IH. unfold kL at 2. destruct (ls_notified x); [lia|]. rewrite st_wake. lia.
Qed.
Lemma st_shutdown s : st (exec_rx_shutdown s) ≤ st s.
Proof.
  unfold exec_rx_shutdown. cbv zeta. etrans; [apply st_fold; intros; apply st_closeA|]. change (st (set_wsA ?l ?x)) with (st x).
  etrans; [apply st_fold; intros; apply st_close1|]. change (st (set_ws1 ?l ?x)) with (st x). change (st (set_bqs ?l ?x)) with (st x).
  etrans; [apply st_drops|]. change (st (set_uq ?l ?x)) with (st x).
  pose proof (wakes_lsts (lsts s) s) as H. set (x := fold_left _ _ _) in *.
  assert (lsts x = lsts s) as El.
  { subst x. clear. generalize (lsts s) at 1. intros l. revert s. induction l as [|y l IH]; intros s; [done|]. cbn. rewrite IH. destruct (ls_notified y); [done|]. by autorewrite with fr_lsts. }
  assert (Σ (kL w) (map (λ l, LS true (if ls_notified l then ls_wk l else None)) (lsts x)) = 0) as E0.
  { apply sum_zero. intros y Hy. apply elem_of_list_In, in_map_iff in Hy as (z & <- & _). done. }
  unfold stored in *. cbn. rewrite E0, El in *. lia.
Qed.
Lemma st_free s : st (free_chan s) ≤ st s.
Proof.
  unfold free_chan. cbv zeta. change (st (set_bqs ?l ?x)) with (st x). etrans; [apply st_drops|]. change (st (set_uq ?l ?x)) with (st x).
  etrans; [apply st_fold; intros; apply st_close_one|]. change (st (set_wrx ?l ?x)) with (st x).
  etrans; [apply st_fold; intros; apply st_closeA|]. change (st (set_wsA ?l ?x)) with (st x).
  etrans; [apply st_fold; intros; apply st_close1|]. done.
Qed.
Lemma st_poll m k s : st (poll_reply m k s).1 ≤ st s + match (poll_reply m k s).2 with OPending => isn w k | _ => 0 end.
Proof.
  unfold poll_reply. destruct (reps s !! m) as [[rx [ww| | |]]|] eqn:E; cbn [fst snd]; try lia.
  - unfold stored; cbn. pose proof (sum_insert (kR w) _ _ _ (RP rx (REmpty (Some k))) E) as H. cbn in H. lia.
  - unfold stored; cbn. pose proof (sum_insert (kR w) _ _ _ (RP rx RTaken) E) as H. cbn in H. lia.
Qed.
Lemma st_i_ones s i x y : ones s !! i = Some x → st (set_ones (<[i := y]> (ones s)) s) + kO w x = st s + kO w y.
Proof. intros H. unfold stored; cbn. pose proof (sum_insert (kO w) _ _ _ y H). lia. Qed.
Lemma st_a_ones s y : st (set_ones (ones s ++ [y]) s) = st s + kO w y.
Proof. unfold stored; cbn. rewrite sum_snoc. lia. Qed.
Lemma st_i_cells1 s i x y : cells1 s !! i = Some x → st (set_cells1 (<[i := y]> (cells1 s)) s) + kC w x = st s + kC w y.
Proof. intros H. unfold stored; cbn. pose proof (sum_insert (kC w) _ _ _ y H). lia. Qed.
Lemma st_a_cells1 s y : st (set_cells1 (cells1 s ++ [y]) s) = st s + kC w y.
Proof. unfold stored; cbn. rewrite sum_snoc. lia. Qed.
Lemma st_i_cellsA s i x y : cellsA s !! i = Some x → st (set_cellsA (<[i := y]> (cellsA s)) s) + kC w x = st s + kC w y.
Proof. intros H. unfold stored; cbn. pose proof (sum_insert (kC w) _ _ _ y H). lia. Qed.
Lemma st_a_cellsA s y : st (set_cellsA (cellsA s ++ [y]) s) = st s + kC w y.
Proof. unfold stored; cbn. rewrite sum_snoc. lia. Qed.
Lemma st_i_reps s i x y : reps s !! i = Some x → st (set_reps (<[i := y]> (reps s)) s) + kR w x = st s + kR w y.
Proof. intros H. unfold stored; cbn. pose proof (sum_insert (kR w) _ _ _ y H). lia. Qed.
Lemma st_a_reps s y : st (set_reps (reps s ++ [y]) s) = st s + kR w y.
Proof. unfold stored; cbn. rewrite sum_snoc. lia. Qed.
End stored.


Ltac stc :=
  unfold push_unicast in *; repeat progress (
    change (stored ?w (set_txc ?l ?x)) with (stored w x);
    change (stored ?w (set_rxc ?l ?x)) with (stored w x);
    change (stored ?w (set_uq ?l ?x)) with (stored w x);
    change (stored ?w (set_ws1 ?l ?x)) with (stored w x);
    change (stored ?w (set_wsA ?l ?x)) with (stored w x);
    change (stored ?w (set_wrx ?l ?x)) with (stored w x);
    change (stored ?w (set_bqs ?l ?x)) with (stored w x);
    change (stored ?w (set_tail ?l ?x)) with (stored w x);
    change (stored ?w (set_bqueues ?l ?x)) with (stored w x);
    change (stored ?w (set_addrs ?l ?x)) with (stored w x);
    change (stored ?w (set_hols ?l ?x)) with (stored w x);
    change (stored ?w (set_sfs ?l ?x)) with (stored w x);
    change (stored ?w (set_rcvs ?l ?x)) with (stored w x);
    change (stored ?w (set_jhs ?l ?x)) with (stored w x);
    change (stored ?w (set_thr ?l ?x)) with (stored w x);
    change (stored ?w (set_nbm ?l ?x)) with (stored w x);
    change (stored ?w (set_nwk ?l ?x)) with (stored w x);
    change (stored ?w (set_log ?l ?x)) with (stored w x);
    rewrite ?st_hst, ?st_sst, ?st_bq, ?st_wake).
Ltac stl := repeat match goal with
  | |- context [stored ?w (one_send ?o ?c ?s).1] => pose proof (st_one_send w o c s); generalize dependent (stored w (one_send o c s).1); intros
  | |- context [stored ?w (try_fulfill_receiver ?m ?s).1] => pose proof (st_fulfill w (wrx s) m s); change (fulfill (wrx s) m s) with (try_fulfill_receiver m s) in *; generalize dependent (stored w (try_fulfill_receiver m s).1); intros
  | |- context [stored ?w (pop_unicast ?s).1] => pose proof (st_pop1 w s); generalize dependent (stored w (pop_unicast s).1); intros
  | |- context [stored ?w (pop_broadcast ?b ?s).1] => pose proof (st_popA w b s); generalize dependent (stored w (pop_broadcast b s).1); intros
  | |- context [stored ?w (send_broadcast ?b ?s)] => pose proof (st_bcast w b s); revert dependent s; intros s; stc; generalize dependent (stored w (send_broadcast b s)); intros
  end.
Definition below (w n : nat) : nat := if w <? n then 1 else 0.
Lemma below_S w n : below w (S n) = below w n + isn w n.
Proof. unfold below, isn. destruct (Nat.ltb_spec w (S n)), (Nat.ltb_spec w n), (Nat.eqb_spec n w); lia. Qed.
Ltac chg k l :=
  match goal with
  | H : l !! ?i = Some ?x |- context [<[?i := ?y]> l] => let HI := fresh "HI" in pose proof (sum_insert k l i x y H) as HI; cbn in HI
  end.
Definition InvSp (s : state) : Prop := ∀ w, stored w s + polled w s ≤ below w (nwk s).
Lemma reach_spur s : reach s → InvSp s.
Proof.
  revert s. apply reach_inv; unfold InvSp.
  - intros c w. cbn. unfold stored, polled. cbn. lia.
  - intros s o Hr I w. specialize (I w).
    destruct o; cbn [api]; repeat (dgoal; try done); cbv zeta.
    all: unfold add_addr, put_sf, call, emit in *; repeat dgoal.
    all: unfold stored, polled in *; repeat (progress (prj; autorewrite with fr_nwk)); rewrite ?below_S, ?sum_snoc.
    all: subst; try (chg (kH w) (hols s)); try (chg (kS w) (sfs s)); try (chg (kX w) (rcvs s)); try (chg (kL w) (lsts s)); cbn; try lia.
  - intros s t u rest s1 new Hr I Ht E Hthr w. specialize (I w).
    change (stored w (set_thr (<[t:=new ++ rest]> (thr s1)) s1)) with (stored w s1). change (polled w (set_thr (<[t:=new ++ rest]> (thr s1)) s1)) with (polled w s1).
    cbn [nwk set_thr].
    assert (∀ f, g_sf f u = 1 → ∃ x, sfs s !! f = Some x ∧ sf_st x = SBusy) as HF by (intros; by eapply busyF_at).
    assert (∀ r, g_rf r u = 1 → ∃ h, hols s !! r = Some h ∧ h_st h = HRecvBusy) as HR by (intros; by eapply busyR_at).
    assert (∀ x, u = URcvPoll x → ∀ y, rcvs s !! x = Some y → rc_st y = XBusy) as HX.
    { intros x -> y Hy. pose proof (reach_busyX s Hr x) as Hb. pose proof (msum_head (g_xp x) s t _ rest Ht) as HH. cbn in HH. unfold isn in HH. rewrite Nat.eqb_refl in HH.
      rewrite (at_some _ _ _ _ Hy) in Hb. unfold xbusy in Hb. destruct (rc_st y); try done; lia. }
    clear Hthr Ht.
    exec_cases u E.
    all: unfold deliver, send_out, emit; change (stored ?w (set_log ?l ?x)) with (stored w x); change (polled w (set_log ?l ?x)) with (polled w x).
    all: repeat (progress (prj; autorewrite with fr_nwk)).
    all: try (done || lia).
    all: unfold polled in *; unfold set_hst, set_sst in *; repeat (progress (prj; autorewrite with fr_hols fr_sfs fr_rcvs)).
    all: repeat match goal with |- context [match ?x with _ => _ end] => match x with hols _ !! _ => destruct x eqn:? | sfs _ !! _ => destruct x eqn:? end end.
    all: repeat (progress (prj; autorewrite with fr_hols fr_sfs fr_rcvs)).
    all: stc; rewrite ?st_a_ones, ?st_a_cells1, ?st_a_cellsA, ?sum_snoc.
    all: repeat match goal with
      | |- context [stored ?w (one_send ?o ?c ?s).1] => pose proof (st_one_send w o c s); generalize dependent (stored w (one_send o c s).1); intros
      | |- context [stored ?w (exec_rx_shutdown ?s)] => pose proof (st_shutdown w s); generalize dependent (stored w (exec_rx_shutdown s)); intros
      | |- context [stored ?w (try_fulfill_receiver ?m ?s).1] =>
          pose proof (st_fulfill w (wrx s) m s : stored w (try_fulfill_receiver m s).1 ≤ stored w s); generalize dependent (stored w (try_fulfill_receiver m s).1); intros
      | |- context [stored ?w (pop_unicast ?s).1] => pose proof (st_pop1 w s); generalize dependent (stored w (pop_unicast s).1); intros
      | |- context [stored ?w (pop_broadcast ?b ?s).1] => pose proof (st_popA w b s); generalize dependent (stored w (pop_broadcast b s).1); intros
      | |- context [stored ?w (send_broadcast ?b ?s)] =>
          let H := fresh in pose proof (st_bcast w b s) as H; change (stored w (set_nbm ?l ?x)) with (stored w x) in H; generalize dependent (stored w (send_broadcast b s)); intros
      | |- context [stored ?w (poll_reply ?m ?k ?s).1] => pose proof (st_poll w m k s); generalize dependent (stored w (poll_reply m k s).1); intros
      | |- context [stored ?w (drop_umsg ?m ?k ?s)] => pose proof (st_drop w m k s); generalize dependent (stored w (drop_umsg m k s)); intros
      | H : ones ?s !! ?i = Some ?x |- context [stored ?w (set_ones (<[?i := ?y]> (ones ?s)) ?s)] =>
          let H1 := fresh in pose proof (st_i_ones w s i x y H) as H1; cbn in H1; generalize dependent (stored w (set_ones (<[i := y]> (ones s)) s)); intros
      | H : cells1 ?s !! ?i = Some ?x |- context [stored ?w (set_cells1 (<[?i := ?y]> (cells1 ?s)) ?s)] =>
          let H1 := fresh in pose proof (st_i_cells1 w s i x y H) as H1; cbn in H1; generalize dependent (stored w (set_cells1 (<[i := y]> (cells1 s)) s)); intros
      | H : cellsA ?s !! ?i = Some ?x |- context [stored ?w (set_cellsA (<[?i := ?y]> (cellsA ?s)) ?s)] =>
          let H1 := fresh in pose proof (st_i_cellsA w s i x y H) as H1; cbn in H1; generalize dependent (stored w (set_cellsA (<[i := y]> (cellsA s)) s)); intros
      | H : reps ?s !! ?i = Some ?x |- context [stored ?w (set_reps (<[?i := ?y]> (reps ?s)) ?s)] =>
          let H1 := fresh in pose proof (st_i_reps w s i x y H) as H1; cbn in H1; generalize dependent (stored w (set_reps (<[i := y]> (reps s)) s)); intros
      end.
    all: try lia.
    all: repeat match goal with H : Some _ = Some _ |- _ => injection H as -> end.
    all: try match goal with H : sfs _ !! ?f = Some ?x |- _ =>
      destruct (HF f) as (y & Hy & Hb); [cbn; by rewrite Nat.eqb_refl|]; rewrite Hy in H; injection H as -> end.
    all: try match goal with H : hols _ !! ?f = Some ?x |- _ =>
      destruct (HR f) as (y & Hy & Hb); [cbn; by rewrite Nat.eqb_refl|]; rewrite Hy in H; injection H as -> end.
    all: try match goal with H : rcvs _ !! ?f = Some ?x |- _ => pose proof (HX f eq_refl x H) end.
    all: repeat match goal with
      | H : hols ?s !! ?i = Some ?x |- context [Σ (kH ?w) (<[?i := ?y]> (hols ?s))] =>
          let H1 := fresh in pose proof (sum_insert (kH w) (hols s) i x y H) as H1; unfold kH in H1 at 2 4; cbn in H1; generalize dependent (Σ (kH w) (<[i := y]> (hols s))); intros
      | H : sfs ?s !! ?i = Some ?x |- context [Σ (kS ?w) (<[?i := ?y]> (sfs ?s))] =>
          let H1 := fresh in pose proof (sum_insert (kS w) (sfs s) i x y H) as H1; unfold kS in H1 at 2 4; cbn in H1; generalize dependent (Σ (kS w) (<[i := y]> (sfs s))); intros
      | H : rcvs ?s !! ?i = Some ?x |- context [Σ (kX ?w) (<[?i := ?y]> (rcvs ?s))] =>
          let H1 := fresh in pose proof (sum_insert (kX w) (rcvs s) i x y H) as H1; unfold kX in H1 at 2 4; cbn in H1; generalize dependent (Σ (kX w) (<[i := y]> (rcvs s))); intros
      end; cbn; try lia.
    all: try discriminate.
    all: repeat match goal with H : sf_st ?x = SBusy |- _ => rewrite H in * | H : h_st ?x = HRecvBusy |- _ => rewrite H in * | H : rc_st ?x = XBusy |- _ => rewrite H in * end; try lia.
    all: try match goal with E2 : snd ?x = _, H : context [snd ?x] |- _ => rewrite E2 in H; try lia end.
    all: unfold kR in *; cbn in *; try lia.
  - intros s Hr I Ho w. specialize (I w). pose proof (st_free w s). unfold polled in *. autorewrite with fr_hols fr_sfs fr_rcvs fr_nwk. lia.
Qed.
