(** Actors on executors: calls are answered. *)
From stdpp Require Import base numbers list list_numbers.
From Coq Require Import Lia.
From Verif Require Import Prio Heap State Model HeapProofs Frame Lib InvBusy InvCount Effects InvMsg InvOne InvOne2 InvFut InvCell WaitSpec InvWs InvBlk InvSend InvBc Mono Events Spec Bridge FinishSpec FinishProofs
  InvHeap InvDisc InvWait InvErr InvConn FinalB FinalC FinalD FinalE FinalF FinalG FinalI ClaimsA ClaimsB ClaimsC ClaimsE ClaimsN System SystemSpec SystemProofs SystemInv SystemEnd SystemLost StopSpec SystemStop SystemNext ClaimsO SystemCause CallSpec.

Lemma pending_message s f x m : reach s → quiet s → ¬ disc s → blocked m s = 0 → sfs s !! f = Some x → send_pending x → message_of x = Some m → 0 < times (accepted m) s.
Proof.
  intros Hr Hq Hd Hb Hf [Hl [(c & Hc)|(Hs & m' & Hm')]] Hm.
  - destruct (wait_cell s f x m c Hr Hq Hf Hm Hc) as [(w & k & _ & _ & ?)|[[_ ?]|[Hw _]]]; [lia|done|exfalso].
    destruct (reach_DC s Hr) as [_ HC]. apply Hd, (HC c). rewrite (at_some _ _ _ _ Hw). cbn. lia.
  - destruct (reach_ok s Hr) as [HK _]. rewrite accepted_sum. apply (HK f); rewrite (at_some _ _ _ _ Hf); [unfold f_done; rewrite Hs; lia|]. by destruct (message_of_is m x Hm).
Qed.
Lemma rcv_accepted s x rc : reach s → rcvs s !! x = Some rc → 0 < times (accepted (rc_m rc)) s.
Proof. intros Hr Hx. destruct (reach_ok s Hr) as [_ HK]. rewrite accepted_sum. by eapply HK. Qed.
Lemma accepted_ev s m : 0 < times (accepted m) s → happened (EvAccept m) s.
Proof. intros H. apply cnt_pos_inv in H as (e & He & Hm). destruct e; try done. cbn in Hm. apply Nat.eqb_eq in Hm as ->. done. Qed.
Lemma pending_pollable x : send_pending x → pollable x.
Proof. intros [H1 [[c E]|[E _]]]; (split; [done|]); by rewrite E. Qed.
Lemma rest_calls y : sys_reachable y → (∀ l, ¬ inner y l) → cap (ch y) ≠ Some 0 → some_actor y →
  (∀ m, happened (EvAccept m) (ch y) → (∃ v, happened (EvDone m v) (ch y)) ∨ lost m (ch y)) → answered_or_lost (ch y).
Proof.
  intros Hy Hn Hc Ha Hall. destruct (sys_reach y Hy) as [Hrr I]. pose proof (reachable_reach _ Hrr) as Hr. pose proof (rest_quiet y Hn) as Hq.
  destruct Ha as (i & t & Ht & Hd). destruct (rest_settled y Hy Hn) as [_ HS]. destruct (HS i t Ht) as [?|(r & h & Es & Hh2 & Hidle & _ & _ & Hb & Hst)]; [done|]. specialize (Hb Hc).
  assert (¬ disc (ch y)) as Hnd.
  { intros [H|H].
    - destruct (no_txc _ Hrr H) as (? & ? & _). lia.
    - destruct (tinv_mb _ _ (proj1 I _ _ Ht) Hd) as (x & Hx & Hs). pose proof (hol_rx _ _ _ Hr Hx ltac:(by rewrite Hs)). lia. }
  assert (∀ m, 0 < times (accepted m) (ch y) → (∃ v, happened (EvDone m v) (ch y)) ∨ ∃ x, happened (EvDrop m x) (ch y) ∧ lost m (ch y)) as HD.
  { intros m Hm. destruct (Hall m (accepted_ev _ _ Hm)) as [?|H]; [by left|right]. destruct (id H) as [?|?]; eauto. }
  split_and!.
  - intros f x m Hf Hp Hm. assert (message_of x = Some m) as Hmo by (unfold message_of; by rewrite Hm).
    assert (0 < times (accepted m) (ch y)) as Hacc by by eapply pending_message.
    destruct (c29_send _ f x m Hrr Hq Hf (pending_pollable x Hp) Hmo) as (R1 & R2 & _). destruct (HD m Hacc) as [[v Hv]|(w & Hw & Hl)].
    + pose proof (R1 v Hm Hv) as HR. split; [by eapply c32_ready|]. left. by exists v.
    + pose proof (R2 w Hm Hw Hacc) as HR. split; [by eapply c32_ready|]. by right.
  - intros f x m Hf Hp Hm. assert (message_of x = Some m) as Hmo by (unfold message_of; by rewrite Hm).
    assert (0 < times (accepted m) (ch y)) as Hacc by by eapply pending_message.
    assert (resolves_to (ch y) f (OReceiver (length (rcvs (ch y))))) as HR.
    { apply (c29_send _ f x m Hrr Hq Hf (pending_pollable x Hp) Hmo); done. }
    split; [by eapply c32_ready|]. split; [done|]. destruct (HD m Hacc) as [?|(w & Hw & Hl)]; auto.
  - intros k x Hp. pose proof Hp as (Hx & Hl & Hs & _). destruct (c29_receiver _ k x Hrr Hq Hx Hl Hs) as [R1 R2].
    destruct (HD (rc_m x)) as [[v Hv]|(w & Hw & Hlo)]; [by eapply rcv_accepted| |].
    + pose proof (R1 v Hv) as HR. split; [by eapply c32_receiver_ready|]. left. by exists v.
    + pose proof (R2 w Hw) as HR. split; [by eapply c32_receiver_ready|]. by right.
Qed.
Lemma rest_answered y : sys_reachable y → hinv y → (∀ l, ¬ inner y l) → cap (ch y) ≠ Some 0 → some_actor y → answered (ch y).
Proof.
  intros Hy Hh Hn Hc Ha. pose proof (rest_all y Hy Hh Hn Ha) as Hall. destruct Hh as [[_ HC] _].
  assert (∀ m, ¬ lost m (ch y)) as HL by (intros m [H|H]; pose proof (sum_elem e_bad _ _ H) as H1; cbn in H1; lia).
  destruct (rest_calls y Hy Hn Hc Ha) as (A1 & A2 & A3); [intros m Hm; left; by apply Hall|]. split_and!.
  - intros f x m Hf Hp Hm. destruct (A1 f x m Hf Hp Hm) as [Hw [?|[H _]]]; [done|by apply HL in H].
  - intros f x m Hf Hp Hm. destruct (A2 f x m Hf Hp Hm) as (Hw & HR & [[v Hv]|H]); [|by apply HL in H]. split; [done|by exists v].
  - intros k x Hp. destruct (A3 k x Hp) as [Hw [?|[H _]]]; [done|by apply HL in H].
Qed.
Lemma sys_cap c l : cap (ch (sys_run (sys_init c) l)) = c.
Proof.
  induction l as [|x l IH] using rev_ind; [done|]. rewrite sys_run_snoc. destruct (ch_step (sys_run (sys_init c) l) x) as [-> |[o ->]]; [done|]. by rewrite step_cap.
Qed.
Lemma calls_answered c l : hands_off l → uncancelled l → c ≠ Some 0 → leads (λ z, some_actor z → answered (ch z)) (sys_run (sys_init c) l).
Proof.
  intros Hl Hu Hc. apply (leads_all (λ y, sys_reachable y ∧ hinv y ∧ cap (ch y) = c)); [by intros y [? _]|..].
  - intros y x (Hy & Hi & Hk) Hx. split; [by apply sys_reachable_step|]. destruct (sys_reach y Hy) as [Hr I]. split.
    + by apply hinv_step; [apply reachable_reach|..|apply (inner_plain y x)|apply (inner_plain y x)].
    + destruct (ch_step y x) as [-> |[o ->]]; [done|]. by rewrite step_cap.
  - intros y (Hy & Hi & <-) Hn. by apply rest_answered.
  - split; [by exists c, l|]. split; [by apply hinv_run|apply sys_cap].
Qed.
Lemma service_answers c l i : let y := sys_run (sys_init c) l in hands_off l → uncancelled l → no_stops l → c ≠ Some 0 → working y i → 0 < strong_addresses (ch y) →
  leads (λ z, working z i ∧ answered (ch z)) y.
Proof.
  intros y H1 H1' H2 Hc H3 H4. eapply leads_impl; [|apply leads_and; [by apply (keeps_working c l i)|by apply (calls_answered c l)]].
  cbn. intros z [Hw Hd]. split; [done|]. apply Hd. destruct Hw as (t & Ht & Hs). exists i, t. split; [done|]. destruct Hs as [-> |[? ->]]; done.
Qed.
Lemma calls_over c l : hands_off l → c ≠ Some 0 → leads (λ z, some_actor z → answered_or_lost (ch z)) (sys_run (sys_init c) l).
Proof.
  intros Hl Hc. apply leads_hinv2; [done|]. intros y Hy Hi Hn E Ha. apply rest_calls; try done; [by rewrite E|]. by apply rest_dropped.
Qed.
