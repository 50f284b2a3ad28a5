(** The property statements, derived from the invariants (part J: sinks). *)
From stdpp Require Import base numbers list list_numbers.
From Coq Require Import Lia.
From Verif Require Import Prio Heap State Model Frame Lib Spec Sink SinkSpec SinkProofs ClaimsB.

Lemma c48_order : ∀ s a ops i j mi mj, reachable s → live_address s a → let x := sk_run (sk_new s a) ops in
  started x !! i = Some mi → started x !! j = Some mj → i < j → done_before (sk_main x) mi mj.
Proof.
  cbv zeta. unfold started. intros s a ops i j mi mj Hr Ha. pose proof (sk_inv s a ops Hr Ha) as H. pose proof (fed_starts s a ops) as E.  rewrite <-E.
  destruct (sk_run (sk_new s a) ops) as [s' a' st fed h]. destruct H as (_ & _ & H & _). apply H.
Qed.
Lemma c48_start : ∀ s a ops m, reachable s → live_address s a → let x := sk_run (sk_new s a) ops in
  sk_hist (sk_step x KItem) = sk_hist x ++ [KStart m] →
  (∀ m', m' ∈ started x → ∃ v, happened (EvDone m' v) (sk_main x)) ∧ newly (sk_main x) (sk_main (sk_step x KItem)) (EvPrio m 0).
Proof.
  cbv zeta. unfold started. intros s a ops m Hr Ha. pose proof (sk_inv s a ops Hr Ha) as H. pose proof (fed_starts s a ops) as E.  rewrite <-E. clear E.
  destruct (sk_run (sk_new s a) ops) as [s' a' st fed h]. destruct H as (H1 & H2 & H3 & H4 & H5). cbn. destruct st; cbn.
  2-5: intros E; exfalso; try (apply app_inv_head in E; discriminate); rewrite <-(app_nil_r h) in E at 1; apply app_inv_head in E; discriminate.
  intros E. apply app_inv_head in E. injection E as <-. split; [exact H4|]. destruct H5 as ([k e []] & Hx & Hl); [done| |done].
  exists [EvPrio (length (reps s')) 0]. split; [|by left]. unfold between. unfold step, collect.
  assert (chan_owned (api (ASend a') s') = true) as ->.
  { unfold chan_owned. cbn [api]. rewrite Hx. prj.
    assert (existsb ad_live (addrs (if k then set_txc (S (txc s')) s' else s')) = true) as Hex; [|destruct k; cbn in Hex |- *; rewrite Hex; by rewrite ?orb_true_r].
    apply existsb_exists. exists (AD k e true). split; [|done]. apply elem_of_list_In. destruct k; by eapply elem_of_list_lookup_2. }
  cbn [api]. rewrite Hx. by destruct k.
Qed.
Lemma c48_not_before : ∀ s a ops m, reachable s → live_address s a → let x := sk_run (sk_new s a) ops in
  m ∈ started x → (∀ v, ¬ happened (EvDone m v) (sk_main x)) → sk_main (sk_step x KItem) = sk_main x ∧ started (sk_step x KItem) = started x.
Proof.
  cbv zeta. intros s a ops m Hr Ha Hm Hd. pose proof (c48_start s a ops) as HS. cbv zeta in HS.
  destruct (sk_run (sk_new s a) ops) as [s' a' st fed h]. destruct st; cbn in *; try done.
  - exfalso. destruct (HS _ Hr Ha eq_refl) as [H _]. destruct (H m Hm) as [v Hv]. by apply (Hd v).
  - split; [done|]. unfold started, starts. cbn. rewrite list.omap_app. cbn. by rewrite app_nil_r.
  - split; [done|]. unfold started, starts. cbn. rewrite list.omap_app. cbn. by rewrite app_nil_r.
Qed.
Lemma c48_ready : ∀ s a ops m v, reachable s → live_address s a → let x := sk_run (sk_new s a) ops in
  quiet (sk_main x) → last (started x) = Some m → happened (EvDone m v) (sk_main x) → (∃ f, sk_st x = KSend f) →
  ∃ n, let y := sk_run x (KFlush :: replicate n (KMain (Step (length (thr (sk_main x))))) ++ [KResult]) in
  sk_hist y = sk_hist x ++ [KOk] ∧ sk_hist (sk_step y KItem) = sk_hist y ++ [KStart (length (reps (sk_main y)))].
Proof.
  cbv zeta. unfold started. intros s a ops m v Hr Ha Hq Hm Hd (f & Hf). pose proof (sk_inv s a ops Hr Ha) as H.
  pose proof (fed_starts s a ops) as E.  rewrite <-E in Hm. clear E.
  assert (resolves_to (sk_main (sk_run (sk_new s a) ops)) f (OValue v)) as HR.
  { destruct (sk_run (sk_new s a) ops) as [s' a' st fed h]. destruct H as (H1 & H2 & H3 & H4 & H5). cbn in *. subst st.
    destruct H4 as (fed' & m' & x & -> & _ & Hx & Hmd & Hl & Hw). rewrite last_snoc in Hm. injection Hm as ->. destruct Hw as [Hw1 Hw2].
    assert (pollable x) as Hp by (by split_and!).
    assert (message_of x = Some m) as Hmo by (unfold message_of; by rewrite Hmd).
    destruct (c29_send s' f x m H1 Hq Hx Hp Hmo) as (R & _). by apply R. }
  destruct (flush_result _ f (OValue v) H Hf HR) as (n & R1 & R2). exists n. split; [done|].
  destruct (sk_run _ (KFlush :: _)) as [s' a' st fed h] eqn:E. cbn in R1. subst st. done.
Qed.
