(** Actors on executors: join handles. *)
From stdpp Require Import base numbers list list_numbers.
From Coq Require Import Lia.
From Verif Require Import Prio Heap State Model Frame Lib InvBusy InvCount Effects InvMsg InvOne Mono Events Spec Bridge
  FinalF ClaimsA ClaimsB ClaimsC ClaimsE System SystemSpec SystemProofs SystemInv SystemEnd SystemLost StopSpec SystemStop SystemCause ClaimsO ClaimsP JoinSpec.

Lemma quiet_todo p s : quiet s → todo p s = 0.
Proof.
  intros Hq. rewrite (todo_sum (λ u, b2n (p u))) by done. by apply quiet_msum.
Qed.
Lemma rest_joins y : sys_reachable y → own y → (∀ l, ¬ inner y l) → ¬ some_actor y → no_other_mailbox y → joins_over (ch y).
Proof.
  intros Hy HO Hn Ha Hm j x Hj. destruct (sys_reach y Hy) as [Hrr I]. pose proof (rest_quiet y Hn) as Hq.
  apply c33_end; [done| |by apply quiet_todo..|done].
  unfold mailbox_objects. rewrite (cnt_sum (λ h, match h_st h with HGone => 0 | _ => 1 end)) by b2n.
  apply sum_zero. intros h [r Hh]%elem_of_list_lookup. destruct (HO r h Hh) as [E|[-> |(i & t & Ht & E)]]; [|done|].
  - destruct Ha. destruct (Hm r h Hh E) as (i & t & Ht & _ & Hd). by exists i, t.
  - destruct Ha. exists i, t. by rewrite E.
Qed.
Lemma joins_from y : sys_reachable y → own y → leads (λ z, ¬ some_actor z → no_other_mailbox z → joins_over (ch z)) y.
Proof.
  intros H1 H2. apply (leads_all (λ y, sys_reachable y ∧ own y)); [by intros ? [? _]|..|done].
  - intros z l [Hz HO] Hl. destruct (sys_reach z Hz) as [Hrr I]. split; [by apply sys_reachable_step|].
    apply own_step; [by apply reachable_reach|done|done|]. apply (inner_plain z l Hl).
  - intros z [Hz HO] Hn Ha Hm. by apply rest_joins.
Qed.
Lemma joins_end c l : hands_off l → leads (λ z, ¬ some_actor z → no_other_mailbox z → joins_over (ch z)) (sys_run (sys_init c) l).
Proof. intros Hl. apply joins_from; [by exists c, l|by apply own_run]. Qed.
Lemma joins_last c l : let y := sys_run (sys_init c) l in hands_off l → strong_addresses (ch y) + strong_futures (ch y) = 0 →
  leads (λ z, no_other_mailbox z → joins_over (ch z)) y.
Proof.
  intros y Hl Hs. apply (leads_impl (λ z, ¬ some_actor z ∧ (¬ some_actor z → no_other_mailbox z → joins_over (ch z)))); [intros z [H1 H2]; by apply H2|].
  apply leads_and; [|by apply joins_end]. apply c53_stop; [by exists c, l|done].
Qed.
Lemma tk_inner y l : inner y l → length (tk (sys_step y l)) = length (tk y).
Proof.
  intros [(t & u & -> & _)|(i & v & t & [s' st] & -> & Ht & E)]; cbn [sys_step foreign tk]; [done|]. rewrite Ht, E. cbn [tk]. by rewrite insert_length.
Qed.
Lemma joins_all c l r : let y := sys_run (sys_init c) l in hands_off l → in_handler (ch y) r → 0 < strong_addresses (ch y) + strong_futures (ch y) →
  leads (λ z, no_other_mailbox z → joins_over (ch z)) (sys_run y [SCall (AStopAll r)]).
Proof.
  intros y Hl Hh Hs. set (y1 := sys_run y [SCall (AStopAll r)]).
  assert (sys_reachable y1) as Hy1 by (apply sys_reachable_run; by exists c, l).
  apply (leads_impl (λ z, ((∀ i, i < length (tk y) → finished z i) ∧ length (tk z) = length (tk y)) ∧ (¬ some_actor z → no_other_mailbox z → joins_over (ch z)))).
  { intros z [[H1 H2] H3]. apply H3. intros (i & t & Ht & Hd). destruct (H1 i) as (t' & Ht' & Hd'); [rewrite <-H2; by eapply lookup_lt_Some|]. congruence. }
  apply leads_and; [apply leads_and|].
  - apply (c54_all c l r []); try done. by rewrite app_nil_r.
  - apply (leads_all (λ z, sys_reachable z ∧ length (tk z) = length (tk y))); [by intros ? [? _]|..|done].
    + intros z k [Hz Hk] Hi. split; [by apply sys_reachable_step|]. by rewrite tk_inner.
    + by intros z [_ Hk] _.
  - apply joins_from; [done|]. subst y1 y. change (own (sys_step (sys_run (sys_init c) l) (SCall (AStopAll r)))). rewrite <-sys_run_snoc. apply own_run. intros h [H|H%elem_of_list_singleton]%elem_of_app; [by apply (Hl h)|done].
Qed.
(** Not before. *)
Lemma join_hist s j : reachable s → happened (EvJoin j true) s → ¬ is_conn s.
Proof.
  intros (c & l & ->). induction l as [|o l IH] using rev_ind; [by intros ?%elem_of_nil|]. unfold run. rewrite fold_left_app.
  change (fold_left step [o] (fold_left step l (init c))) with (step (run (init c) l) o). fold (run (init c) l).
  intros He. assert (reachable (run (init c) l)) as Hr by by exists c, l.
  destruct (step_logx (run (init c) l) o) as [k Hk]. unfold happened in He. rewrite Hk in He.
  eapply c22; [exact Hr|by exists [o]|]. apply elem_of_app in He as [He|He]; [|by apply IH]. eapply c33_only; [done|]. by exists k.
Qed.
Lemma join_late_enough y j : sys_reachable y → happened (EvJoin j true) (ch y) → ¬ some_actor y ∨ strong_addresses (ch y) + strong_futures (ch y) = 0.
Proof.
  intros Hy He. destruct (sys_reach y Hy) as [Hrr I]. pose proof (join_hist _ _ Hrr He) as Hc. pose proof (c20 _ Hrr) as HT.
  destruct (decide (strong_addresses (ch y) + strong_futures (ch y) = 0)) as [|Hs]; [by right|left]. intros (i & t & Ht & Hd).
  destruct (tinv_mb _ _ (proj1 I _ _ Ht) Hd) as (h & Hh & Hm). apply Hc. split; [|lia].
  apply (owned_rxc _ (h_bq h)); [by apply reachable_reach|]. exists (t_mb t), h. by rewrite Hm.
Qed.
