(** Calls complete. *)
From stdpp Require Import base numbers list list_numbers.
From Coq Require Import Lia.
From Verif Require Import Prio Heap State Model HeapProofs Frame Lib InvBusy Effects InvMsg InvOne InvOne2 InvBc Mono Events Spec Bridge FinishSpec.

(** ** The measure *)
Definition big (u : micro) : nat :=
  match u with UTxDec => 2 | UTxShutdown | UStopAll => 1 | USendLd1 _ _ _ | USendLd2 _ _ _ | USendLock _ _ _ => 4 | _ => 0 end.
Definition small (u : micro) : nat :=
  match u with
  | UTxDec | UTxShutdown | UStopAll => 0
  | USendLd1 _ _ _ => 2 | USendLd2 _ _ _ => 1 | USendLock _ _ _ => 0
  | URxDec => 2 | USendCell1 _ _ | USendCellA _ _ => 3 | USendOk _ => 2 | UCellDrop1 _ | UCellDropA _ => 2
  | UTryRecv _ => 5 | UPollOne _ _ => 4 | UNextBc _ => 6 | UCancel _ => 2 | UOneDrop _ => 2
  | UJoinLd1 _ | UConnLd1 _ => 2
  | _ => 1
  end.
Definition f1 (x : one) : nat := match x with ON _ (OFull CNewBroadcast) | ON true OClosed => 1 | _ => 0 end.
Notation Ac s := (Σ (bcell (λ _, 1)) (cellsA s)).
Notation Fc s := (Σ f1 (ones s)).

Lemma one_send_f1 o c s : c ≠ CNewBroadcast → Fc (fst (one_send o c s)) = Fc s.
Proof.
  intros Hc. unfold one_send. destruct (ones s !! o) as [[[] []]|] eqn:E; try done. cbn [fst].
  repeat (progress (prj; autorewrite with fr_ones)). pose proof (sum_insert f1 _ _ _ (ON true (OFull c)) E) as H. cbn in H.
  destruct c; try done; lia.
Qed.
Lemma fulfill_f1 ws m s : Fc (fst (fulfill ws m s)) = Fc s.
Proof.
  revert s; induction ws as [|o ws IH]; intros s; simpl; [done|].
  pose proof (one_send_f1 o (CNewMsg m) s ltac:(done)) as H. destruct (one_send o (CNewMsg m) s) as [s' []]; cbn [fst] in *; [done|]. by rewrite IH.
Qed.
Lemma pop_f1 b s : Ac (fst (pop_broadcast b s)) < Ac s ∨ Ac (fst (pop_broadcast b s)) = Ac s ∧ Fc (fst (pop_broadcast b s)) = Fc s.
Proof.
  destruct (pop_broadcast_cases b s) as [[_ ->]|(m & h & _ & _ & [[_ ->]|(_ & s3 & x & T & _ & ->)])]; [by right|..].
  - right. unfold pop_put. by repeat (progress (prj; autorewrite with fr_ones fr_cellsA)).
  - pose proof (take_waitingA_sum (λ _, 1) (pop_put b h s)) as H. pose proof (take_waitingA_ones (pop_put b h s)) as H2. rewrite T in H, H2. cbn [fst snd] in H, H2.
    assert (cellsA (pop_put b h s) = cellsA s) as E1 by (unfold pop_put; by repeat (progress (prj; autorewrite with fr_cellsA))).
    assert (ones (pop_put b h s) = ones s) as E2 by (unfold pop_put; by repeat (progress (prj; autorewrite with fr_ones))).
    rewrite E1 in H. rewrite E2 in H2. destruct x as [m2|]; cbn in H.
    + left. repeat (progress (prj; autorewrite with fr_cellsA)). lia.
    + right. rewrite H2. split; [lia|done].
Qed.
Lemma close_A l s : Ac (fold_left close_handleA l s) ≤ Ac s.
Proof.
  revert s; induction l as [|c l IH]; intros s; [done|]. cbn [fold_left]. etrans; [apply IH|].
  unfold close_handleA. repeat dgoal; try done. repeat (progress (prj; autorewrite with fr_cellsA)).
  match goal with |- context [<[?c := ?y]> (cellsA s)] => pose proof (sum_insert (bcell (λ _, 1)) (cellsA s) c _ y ltac:(eassumption)) as H end.
  cbn in H. lia.
Qed.
Lemma shut_A s : Ac (exec_rx_shutdown s) ≤ Ac s.
Proof. unfold exec_rx_shutdown. cbv zeta. etrans; [apply close_A|]. by repeat (progress (prj; autorewrite with fr_cellsA)). Qed.
Lemma exec_dec s t u rest s1 new : reach s → thr s !! t = Some (u :: rest) → exec u s = (s1, new) →
  Σ big new + Ac s1 < big u + Ac s ∨ Σ big new + Ac s1 ≤ big u + Ac s ∧ Σ small new + 3 * Fc s1 < small u + 3 * Fc s.
Proof.
  intros Hr Ht E.
  assert (∀ r o, u = UPollOne r o → at_ o_live (ones s) o = 1) as Hl.
  { intros r o ->. destruct (reach_own s Hr o) as [H1 _]. pose proof (msum_head (g_one o) s t _ rest Ht) as H2. cbn in H2.
    unfold isn in H2. rewrite Nat.eqb_refl in H2.
    pose proof (at_bound o_live (ones s) o 1 ltac:(intros [[] ?]; cbn; lia)). lia. }
  pose proof (shut_A s) as HS.
  assert (∀ b, Ac (fst (pop_broadcast b s)) < Ac s ∨ Ac (fst (pop_broadcast b s)) = Ac s ∧ Fc (fst (pop_broadcast b s)) = Fc s) as HB by (intros; apply pop_f1).
  exec_cases u E.
  all: unfold deliver, send_out, rx_drop, payload_drop, tx_drop, try_fulfill_receiver, panic_recv, panic_send in *.
  all: repeat (progress (prj; autorewrite with fr_cellsA fr_ones)); rewrite ?sum_list_with_app.
  all: repeat match goal with |- context [Σ _ (match ?x with _ => _ end)] => destruct x end.
  all: rewrite ?fulfill_f1; rewrite ?one_send_f1 by done.
  all: cbn [sum_list_with big small].
  all: try lia.
  all: try (rewrite (sum_notify big) by done; lia).
  all: try (cbn [bcell f1]; lia).
  all: try match goal with |- context [pop_broadcast ?b _] => pose proof (HB b); lia end.
  all: try match goal with H : cellsA ?x !! ?c = Some ?z |- context [<[?c := ?y]> (cellsA ?x)] =>
    pose proof (sum_insert (bcell (λ _, 1)) (cellsA x) c z y H) as HI; cbn [bcell] in HI; try (destruct wc_alive; lia); try lia end.
  all: try match goal with H : ones ?x !! ?o = Some ?z |- context [<[?o := ?y]> (ones ?x)] =>
    pose proof (sum_insert f1 (ones x) o z y H) as HI; cbn [f1] in HI; try (destruct o_rx; lia); try lia end.
  pose proof (Hl _ _ eq_refl) as Hv. rewrite (at_some _ _ _ _ Em0) in Hv. destruct o_rx; [lia|done].
Qed.

(** ** All calls in progress complete *)
Lemma settles_ind2 : ∀ G S s, reach s → msum big s + Ac s = G → msum small s + 3 * Fc s = S → settles s.
Proof.
  intros G. induction (lt_wf G) as [G _ IHG]. intros S. induction (lt_wf S) as [S _ IHS].
  intros s Hr HG HS. constructor. intros t u [rest Ht]. unfold step, do_step. rewrite Ht.
  destruct (exec u s) as [s1 new] eqn:E. pose proof (exec_thr u s) as Hthr. rewrite E in Hthr. cbn [fst] in Hthr.
  pose proof (msum_step big s t u rest new s1 Ht Hthr) as HM1. pose proof (msum_step small s t u rest new s1 Ht Hthr) as HM2.
  pose proof (exec_dec s t u rest s1 new Hr Ht E) as HD.
  assert (reach (set_thr (<[t:=new ++ rest]> (thr s1)) s1)) as Hx.
  { pose proof (reach_step s t Hr) as H. unfold do_step in H. by rewrite Ht, E in H. }
  set (x := set_thr (<[t:=new ++ rest]> (thr s1)) s1) in *.
  change (cellsA s1) with (cellsA x) in HD. change (ones s1) with (ones x) in HD.
  unfold collect. destruct (chan_owned x) eqn:Eo.
  - destruct HD as [HD|[HD1 HD2]].
    + eapply (IHG (msum big x + Ac x)); [lia|done..].
    + destruct (decide (msum big x + Ac x = G)) as [EG|EG].
      * eapply (IHS (msum small x + 3 * Fc x)); [lia|done..].
      * eapply (IHG (msum big x + Ac x)); [lia|done..].
  - constructor. intros t' u' [rest' Ht']. exfalso. autorewrite with fr_thr in Ht'. unfold chan_owned in Eo.
    apply orb_false_elim in Eo as [_ Eo].
    assert (existsb (λ p : list micro, match p with [] => false | _ => true end) (thr x) = true) as Et; [|congruence].
    apply existsb_exists. exists (u' :: rest'). split; [|done]. apply elem_of_list_In. by eapply elem_of_list_lookup_2.
Qed.
Lemma calls_settle s : reach s → settles s.
Proof. intros Hr. by eapply settles_ind2. Qed.

(** ** One call completes *)
(** The action belongs to a poll of a receive future. *)
Definition of_receive (u : micro) : Prop :=
  match u with UTryRecv _ | UPollOne _ _ | UNextBc _ => True | _ => False end.
Lemma exec_own u s s1 new : exec u s = (s1, new) → ¬ of_receive u →
  (∀ x, x ∈ new → ¬ of_receive x) ∧ (Σ big new < big u ∨ Σ big new ≤ big u ∧ Σ small new < small u).
Proof.
  intros E Hu. exec_cases u E; try (by destruct Hu).
  all: unfold rx_drop, payload_drop, tx_drop in *; rewrite ?sum_list_with_app.
  all: repeat match goal with |- context [Σ _ (match ?x with _ => _ end)] => destruct x end.
  all: split; [|cbn [sum_list_with big small]; first [lia|rewrite (sum_notify big) by done; lia]].
  all: intros zz Hz; cbn [app] in Hz.
  all: try (repeat (apply elem_of_cons in Hz as [-> |Hz]; [intros []|]); by apply elem_of_nil in Hz).
  apply elem_of_list_In, in_map_iff in Hz as (? & <- & _). intros [].
Qed.
Lemma step_other s o t p : thr s !! t = Some p → o ≠ Step t → thr (step s o) !! t = Some p.
Proof.
  intros Ht Ho. unfold step. assert (∀ x, thr (collect x) = thr x) as Hc.
  { intros x. unfold collect. destruct (chan_owned x); [done|]. by autorewrite with fr_thr. }
  rewrite Hc.
  assert (∀ l, (thr s ++ l) !! t = Some p) as Hl by (intros l; by apply lookup_app_l_Some).
  assert (thr (api o s) !! t = Some p) as Ha.
  { destruct o; cbn [api]; repeat (dgoal; try done); cbv zeta; unfold add_addr, call; repeat dgoal; repeat (progress (prj; autorewrite with fr_thr)); done. }
  destruct o as [t'| | | | | | | | | | | | | | | | | | | | | | | | | | |]; try done.
  unfold do_step. destruct (thr s !! t') as [[|u rest]|] eqn:E; try done. destruct (exec u s) as [s1 new] eqn:Ee.
  pose proof (exec_thr u s) as Hthr. rewrite Ee in Hthr. cbn [fst] in Hthr. prj. rewrite Hthr. rewrite list_lookup_insert_ne; [done|congruence].
Qed.
Lemma run_other ops s t p : thr s !! t = Some p → Step t ∉ ops → thr (run s ops) !! t = Some p.
Proof.
  revert s; induction ops as [|o ops IH]; intros s Ht Ho; [done|]. apply not_elem_of_cons in Ho as [H1 H2]. cbn. apply IH; [|done].
  apply step_other; [done|congruence].
Qed.
Lemma finishes_ind2 t : ∀ G S p s, Σ big p = G → Σ small p = S → thr s !! t = Some p → (∀ u, u ∈ p → ¬ of_receive u) → finishes t s.
Proof.
  intros G. induction (lt_wf G) as [G _ IHG]. intros S. induction (lt_wf S) as [S _ IHS].
  intros [|u rest] s HG HS Ht Hp; [by constructor|]. apply finishes_more. intros ops Ho.
  pose proof (run_other ops s t _ Ht Ho) as Ht'. destruct (exec u (run s ops)) as [s1 new] eqn:E.
  destruct (exec_own u _ s1 new E ltac:(apply Hp; by left)) as [Hn HD].
  assert (thr (step (run s ops) (Step t)) !! t = Some (new ++ rest)) as Hx.
  { unfold step, do_step. rewrite Ht', E. pose proof (exec_thr u (run s ops)) as Hthr. rewrite E in Hthr. cbn [fst] in Hthr.
    assert (∀ x, thr (collect x) = thr x) as Hc.
    { intros x. unfold collect. destruct (chan_owned x); [done|]. by autorewrite with fr_thr. }
    rewrite Hc. prj. rewrite Hthr. apply list_lookup_insert. by apply lookup_lt_Some in Ht'. }
  assert (∀ z, z ∈ new ++ rest → ¬ of_receive z) as Hz.
  { intros z [Hz|Hz]%elem_of_app; [by apply Hn|apply Hp; by right]. }
  cbn [sum_list_with] in HG, HS.
  assert (Σ big (new ++ rest) < G ∨ Σ big (new ++ rest) = G ∧ Σ small (new ++ rest) < S) as [Hd|[Hd1 Hd2]].
  { rewrite !sum_list_with_app. lia. }
  - by eapply (IHG _ Hd).
  - by eapply (IHS _ Hd2).
Qed.
Lemma call_finishes s t p : thr s !! t = Some p → (∀ u, u ∈ p → ¬ of_receive u) → finishes t s.
Proof. intros. by eapply finishes_ind2. Qed.

(** Only polling a receive future begins a call with such actions. *)
Definition calm (u : micro) : bool := match u with UTryRecv _ | UPollOne _ _ | UNextBc _ => false | _ => true end.
Lemma api_calls o s : (∀ r, o ≠ APollRecv r) → thr (api o s) = thr s ∨ ∃ p, thr (api o s) = thr s ++ [p] ∧ forallb calm p = true.
Proof.
  intros Ho.
  assert (∀ l x, x = thr s ++ [l] → forallb calm l = true → x = thr s ∨ ∃ p, x = thr s ++ [p] ∧ forallb calm p = true) as Hl by (intros; right; eauto).
  destruct o; try (by destruct (Ho r)).
  all: cbn [api]; repeat (dgoal; try (by left)); cbv zeta; unfold sf_drop, hol_drop in *; prj.
  all: try (left; unfold add_addr; repeat (dgoal; prj); by repeat (progress (prj; autorewrite with fr_thr))).
  all: unfold call; repeat (progress (prj; autorewrite with fr_thr)).
  all: eapply Hl; [done|].
  all: split_drops; unfold add_addr, tx_drop, payload_drop, amsg_drop, rx_drop.
  all: repeat match goal with |- context [match ?x with _ => _ end] => is_var x; destruct x; try done end; try done.
Qed.
Lemma api_own o s p : (∀ r, o ≠ APollRecv r) → thr (step s o) !! length (thr s) = Some p → ∀ u, u ∈ p → ¬ of_receive u.
Proof.
  intros Ho. unfold step.
  assert (∀ x, thr (collect x) = thr x) as Hc.
  { intros x. unfold collect. destruct (chan_owned x); [done|]. by autorewrite with fr_thr. }
  rewrite Hc. intros Hp.
  destruct o as [t'| | | | | | | | | | | | | | | | | | | | | | | | | | |] eqn:Eo.
  { exfalso. unfold do_step in Hp. destruct (thr s !! t') as [[|u rest]|] eqn:E; try (apply lookup_lt_Some in Hp; lia). destruct (exec u s) as [s1 new] eqn:Ee.
    pose proof (exec_thr u s) as Hthr. rewrite Ee in Hthr. cbn [fst] in Hthr. apply lookup_lt_Some in Hp. revert Hp. prj. rewrite Hthr.
    rewrite insert_length. lia. }
  all: rewrite <- Eo in *; destruct (api_calls o s Ho) as [H|(l & H & Hl)]; rewrite H in Hp.
  all: try (apply lookup_lt_Some in Hp; lia).
  all: rewrite lookup_app_r, Nat.sub_diag in Hp by lia; injection Hp as <-; intros u Hu Hr.
  all: rewrite forallb_forall in Hl; apply elem_of_list_In, Hl in Hu; by destruct u.
Qed.
