(** Actors on executors: those who broadcast are not blocked for ever. *)
From stdpp Require Import base numbers list list_numbers.
From Coq Require Import Lia.
From Verif Require Import Prio Heap State Model HeapProofs Frame Lib InvBusy InvCount Effects InvMsg InvMsg2 InvHeap InvOne InvOne2 InvFut InvCell WaitSpec InvWs InvBlk InvSend InvBc Mono Events InvDisc InvErr InvConn Spec Bridge
  FinalB FinalC FinalD FinalE FinalF FinalG FinalI ClaimsA ClaimsB ClaimsC ClaimsE ClaimsN System SystemSpec SystemProofs SystemInv SystemEnd SystemLost StopSpec SystemStop SystemCause SystemCalls BcastSpec.

(** A mailbox queue without owners stays so. *)
Definition dead_too (b : nat) (s z : state) : Prop := b < length (bqueues z) ∧ (bq_live s b = false → bq_live z b = false).
Lemma dead_exec u s s1 new b : exec u s = (s1, new) → b < length (bqueues s) → dead_too b s s1.
Proof.
  intros E Hb.
  assert (∀ z, refs z = refs s → dead_too b s z) as HR.
  { intros z Hz. split; [|by rewrite !blive_at, !at_refs, Hz]. unfold refs in Hz. apply (f_equal length) in Hz. rewrite !map_length in Hz. lia. }
  destruct (bexec u s s1 new E) as [S|[[k ->]|[->|[->|[(f & m & k0 & -> & _ & ->)|[->|(r & h & m & Hu & Hh & -> & Hp)]]]]]].
  - destruct S as (S & _). apply HR. by apply refs_eq.
  - cbn in E. destruct (bqueues s !! k) as [q|] eqn:Hq; injection E as <- <-; [|done]. unfold dead_too. prj. rewrite insert_length. split; [done|].
    unfold bq_live in *. prj. destruct (decide (k = b)) as [->|]; [|by rewrite list_lookup_insert_ne].
    rewrite list_lookup_insert by done. rewrite Hq. intros Hl%Nat.ltb_ge. apply Nat.ltb_ge. cbn. lia.
  - cbn in E. injection E as <- <-. unfold dead_too. prj. rewrite app_length. split; [lia|]. unfold bq_live in *. prj. by rewrite lookup_app_l.
  - cbn in E. injection E as <- <-. apply HR, refs_eq. by autorewrite with fr_bqueues.
  - apply HR, send_broadcast_refs.
  - cbn in E. injection E as <- <-. apply HR. by rewrite send_broadcast_refs.
  - apply HR. unfold deliver. rewrite (refs_eq (fst (pop_broadcast (h_bq h) s))); [apply pop_broadcast_refs|]. unfold emit. prj. by autorewrite with fr_bqueues.
Qed.
Lemma dead_collect b s z : dead_too b s z → dead_too b s (collect z).
Proof. unfold collect. case_match; [done|]. unfold dead_too, bq_live. by rewrite free_chan_bqueues. Qed.
Lemma dead_step s o b : reach s → b < length (bqueues s) → dead_too b s (step s o).
Proof.
  intros Hr Hb. unfold step. destruct o as [t| | | | | | | | | | | | | | | | | | | | | | | | | | |]; apply dead_collect.
  2-28: match goal with Hr0 : reach ?s0 |- context [api ?o ?s0] => destruct (bapi o s0 Hr0) as (_ & _ & _ & _ & _ & E1 & E2 & _) end; unfold dead_too; by rewrite E1, E2.
  unfold do_step. destruct (thr s !! t) as [[|u rest]|] eqn:Ht; try done.
  destruct (exec u s) as [s1 new] eqn:E. exact (dead_exec u s s1 new b E Hb).
Qed.
Lemma dead_run s l b : reach s → b < length (bqueues s) → dead_too b s (run s l).
Proof.
  revert s. induction l as [|o l IH]; intros s Hr Hb; [done|]. destruct (dead_step s o b Hr Hb) as [H1 H2].
  destruct (IH (step s o)) as [H3 H4]; try done; [by apply reach_one|]. split; [exact H3|]. intros ?. by apply H4, H2.
Qed.
Definition all_live (s : state) : Prop := ∀ b, b < length (bqueues s) → bq_live s b = true.
Lemma live_before s l : reach s → all_live (run s l) → all_live s.
Proof.
  intros Hr HL b Hb. destruct (bq_live s b) eqn:E; [done|]. destruct (dead_run s l b Hr Hb) as [H1 H2]. specialize (H2 E). by rewrite (HL b H1) in H2.
Qed.
Lemma discard_dead s o : discards s o → ∃ b, b < length (bqueues (step s o)) ∧ bq_live (step s o) b = false.
Proof.
  intros (t & b & q & -> & [rest Ht] & Hq & H1 & _). exists b. unfold step, do_step. rewrite Ht. cbn [exec]. rewrite Hq.
  assert (∀ z, b < length (bqueues z) ∧ bq_live z b = false → b < length (bqueues (collect z)) ∧ bq_live (collect z) b = false) as HC.
  { intros z. unfold collect. case_match; [done|]. unfold bq_live. by rewrite free_chan_bqueues. }
  apply HC. pose proof (lookup_lt_Some _ _ _ Hq). unfold bq_live. prj. rewrite insert_length. split; [done|]. rewrite list_lookup_insert by done. cbn. by rewrite H1.
Qed.
Lemma keeps_run s l : reach s → all_live (run s l) → keeps s l.
Proof.
  revert s. induction l as [|o l IH]; intros s Hr HL; [done|]. assert (reach (step s o)) as Hr' by by apply reach_one. split; [|by apply IH].
  intros (b & H1 & H2)%discard_dead. pose proof (live_before (step s o) l Hr' HL b H1). congruence.
Qed.
Lemma bcast_to_live s o x qs : reach s → newly s (step s o) (EvBcast x qs) → qs = live s.
Proof.
  intros Hr (k & Hk & Hin). unfold between in Hk.
  assert (∀ s2 l, log s2 = l ++ log s → step s o = collect s2 → EvBcast x qs ∈ l) as HX.
  { intros s2 l Hl Hs. destruct (collect_logx s2) as (k2 & Hk2 & Hn). rewrite Hs, Hk2, Hl, app_assoc in Hk. apply app_inv_tail in Hk. subst k.
    apply elem_of_app in Hin as [Hin|]; [by apply Hn in Hin|done]. }
  destruct o as [t| | | | | | | | | | | | | | | | | | | | | | | | | | |].
  2-28: match type of Hk with log (step _ ?o) = _ => destruct (api_evs o s) as [Ha|(e & Ha & Hs)];
      [by specialize (HX (api o s) [] Ha eq_refl) as ?%elem_of_nil|specialize (HX (api o s) [e] Ha eq_refl) as <-%elem_of_list_singleton; destruct Hs] end.
  unfold step, do_step in HX. destruct (thr s !! t) as [[|u rest]|] eqn:Ht; try by specialize (HX s [] eq_refl eq_refl) as ?%elem_of_nil.
  destruct (exec u s) as [s1 new] eqn:E. destruct (exec_logx _ _ _ _ E) as [l Hl]. specialize (HX (set_thr (<[t:=new ++ rest]> (thr s1)) s1) l Hl eq_refl).
  by rewrite (bcast_live u s s1 new l x qs); eauto.
Qed.
Lemma no_void_run c l : all_live (run (init c) l) → 0 < rxc (run (init c) l) → no_void_broadcast (run (init c) l).
Proof.
  induction l as [|o l IH] using rev_ind; [by intros _ _ x ?%elem_of_nil|]. unfold run. rewrite fold_left_app. change (fold_left step [o] (fold_left step l (init c))) with (step (run (init c) l) o).
  intros HL Hx x He. assert (reach (run (init c) l)) as Hr by apply reach_run, reach_init.
  assert (all_live (run (init c) l)) as HL' by by apply (live_before _ [o]).
  assert (0 < rxc (run (init c) l)) as Hx'. { destruct (decide (rxc (run (init c) l) = 0)) as [E|]; [|lia]. rewrite (rxc0_step _ o Hr E) in Hx. lia. }
  destruct (step_logx (run (init c) l) o) as [k Hk]. unfold happened in He. rewrite Hk in He. apply elem_of_app in He as [He|He]; [|by eapply IH].
  assert ([] = live (run (init c) l)) as E by (apply (bcast_to_live _ o x); [done|by exists k]).
  destruct (dead_run (init c) l 0) as [H0 _]; [apply reach_init|cbn; lia|]. pose proof (HL' 0 H0) as Hl0.
  assert (0 ∈ live (run (init c) l)) as H1; [|rewrite <-E in H1; by apply elem_of_nil in H1]. apply elem_live. split; [|done].
  destruct (reach_bs _ Hr) as (_ & B & _). apply isn_elem. by apply B.
Qed.
Lemma not_blocked c l x : let s := run (init c) l in 0 < rxc s → cap s ≠ Some 0 → (∀ b, b < length (bqueues s) → owned_queue s b ∧ backlog s b = []) →
  ¬ blocked_bcast s x.
Proof.
  intros s Hx Hc HO Hb. assert (reach s) as Hr by apply reach_run, reach_init.
  assert (all_live s) as HL by (intros b Hb'; apply owned_live; [done|by apply HO]).
  destruct (dead_run (init c) l 0) as [H0 _]; [apply reach_init|cbn; lia|].
  destruct (c18 c l s x 0 eq_refl) as (n & b & Hn & _ & Hl); [by apply keeps_run; [apply reach_init|]|by apply no_void_run|done|by apply HO|].
  assert (backlog s b = []) as E. { destruct (bqueues s !! b) as [q|] eqn:Hq; [|unfold backlog; by rewrite Hq]. apply HO. by eapply lookup_lt_Some. }
  rewrite E in Hl. cbn in Hl. destruct n; [done|lia].
Qed.
Lemma rest_bcasts y : sys_reachable y → (∀ l, ¬ inner y l) → cap (ch y) ≠ Some 0 → all_run y → broadcasts_sent (ch y).
Proof.
  intros Hy Hn Hc Ha. destruct (sys_reach y Hy) as [Hrr I]. pose proof (reachable_reach _ Hrr) as Hr. pose proof (rest_quiet y Hn) as Hq.
  assert (qinv y) as [_ HQ] by (destruct Hy as (c & l & ->); apply qinv_run). destruct (rest_settled y Hy Hn) as [_ HS].
  assert (∀ b, b < length (bqueues (ch y)) → owned_queue (ch y) b ∧ backlog (ch y) b = []) as HO.
  { intros b Hb. destruct (Ha b Hb) as (i & t & h & Ht & Hd & Hh & <-).
    destruct (tinv_mb _ _ (proj1 I _ _ Ht) Hd) as (h0 & Hh0 & Hs0). rewrite Hh in Hh0. injection Hh0 as <-.
    split; [exists (t_mb t), h; split_and!; [done|by rewrite Hs0|done]|].
    destruct (HS i t Ht) as [?|(r & k & Hr1 & Hk & _ & _ & Hbk & _)]; [done|].
    destruct (HQ i t r Ht Hr1) as (k' & Hk' & (h1 & Hh1 & _ & Hb1)). rewrite Hk in Hk'. injection Hk' as <-. rewrite Hh in Hh1. injection Hh1 as <-. by rewrite Hb1. }
  destruct Hrr as (c & l & E).
  assert (0 < length (bqueues (ch y))) as H0. { rewrite E. destruct (dead_run (init c) l 0) as [? _]; [apply reach_init|cbn; lia|done]. }
  assert (0 < rxc (ch y)) as Hx. { destruct (HO 0 H0) as [Ho _]. by eapply owned_rxc. }
  assert (0 < txc (ch y)) as Ht.
  { destruct (Ha 0 H0) as (i & t & h & Ht & Hd & _). destruct (HS i t Ht) as [?|(r & k & _ & _ & _ & _ & _ & _ & Hst)]; [done|].
    destruct (decide (txc (ch y) = 0)) as [Hz|]; [|lia]. destruct (no_txc _ ltac:(by exists c, l) Hz) as (? & ? & _). lia. }
  intros f x Hf Hp Hm. assert (resolves_to (ch y) f OOk) as HR; [|split; [|done]].
  - destruct Hp as [Hl [[k Hs]|[_ [m Hm']]]]; [|by rewrite Hm in Hm'].
    destruct (reach_cell _ Hr k) as [_ C]. pose proof (sum_lookup (f_cA k) _ _ _ Hf) as HC. unfold f_cA at 1 in HC. rewrite Hs, Hm in HC.
    unfold isn in HC at 1. rewrite Nat.eqb_refl in HC.
    destruct (at_pos c_live (cellsA (ch y)) k) as ([al st] & Hk & Hpo); [lia|]. unfold c_live in Hpo. cbn in Hpo. destruct al; [|lia].
    destruct st as [w m| |].
    + exfalso. apply (not_blocked c l m); rewrite <-?E; try done. by exists k, w.
    + eapply resolve_bcast; eauto.
    + exfalso. destruct (reach_DC _ Hr) as [_ HD]. destruct (HD k) as [H|H]; [rewrite (at_some _ _ _ _ Hk); cbn; lia|lia..].
  - by eapply c32_ready; [exists c, l|..].
Qed.
Lemma broadcasters c l : c ≠ Some 0 → leads (λ z, all_run z → broadcasts_sent (ch z)) (sys_run (sys_init c) l).
Proof.
  intros Hc. apply (leads_all (λ y, sys_reachable y ∧ cap (ch y) = c)); [by intros y [? _]|..].
  - intros y x [Hy Hk] Hx. split; [by apply sys_reachable_step|]. destruct (ch_step y x) as [-> |[o ->]]; [done|]. by rewrite step_cap.
  - intros y [Hy <-] Hn. by apply rest_bcasts.
  - split; [by exists c, l|apply sys_cap].
Qed.
