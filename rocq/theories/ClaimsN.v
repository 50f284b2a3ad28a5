(** The property statements, derived from the invariants (part N: no spurious wake-ups). *)
From stdpp Require Import base numbers list list_numbers.
From Coq Require Import Lia.
From Verif Require Import Prio Heap State Model Frame Lib InvBusy Effects InvMsg InvOne InvPoll Mono Spec Bridge WakeRel InvWake InvFresh InvJoin InvSpur FinalH
  Witness WitnessB WitnessC WitnessE ClaimsA.

Lemma spur_woken s w : reach s → woken s w → stored w s ≤ 1 ∧ 1 ≤ Σ (isn w) (wakes s).
Proof.
  intros Hr Hw. pose proof (reach_spur s Hr w) as H. assert (1 ≤ Σ (isn w) (wakes s)) as H1.
  { etrans; [|by apply (sum_elem (isn w)), Hw]. unfold isn. by rewrite Nat.eqb_refl. }
  split; [|done]. unfold below in H. destruct (w <? nwk s); lia.
Qed.
Lemma spur_kw w : kw w (Some w) = 1.
Proof. cbn. unfold isn. by rewrite Nat.eqb_refl. Qed.

Lemma c52_once : ∀ s w, reachable s → cnt (λ k, k =? w) (wakes s) ≤ 1.
Proof.
  intros s w Hr. rch. rewrite (cnt_sum (isn w)); [|intros x; by unfold isn; case_match]. pose proof (reach_spur s Hr w) as H.
  unfold stored, below in H. destruct (w <? nwk s); lia.
Qed.
Lemma c52_receiver : ∀ s r h o, reachable s → hols s !! r = Some h → h_st h = HRecvWait o → woken s (h_wk h) → ¬ idle s r.
Proof.
  intros s r h o Hr Hh Ho Hw (h' & o' & rx & w & Hh' & Ho' & Hone). simplify_eq. rch. destruct h as [b st k wk]. cbn in *. subst st.
  destruct (spur_woken s wk Hr Hw) as [H1 H2]. destruct (reach_wr s Hr _ _ _ _ _ Hh) as (y & Hy & Hp). simplify_eq.
  destruct Hp as [[= ->]|[[=] _]]. pose proof (sum_lookup (kO wk) _ _ _ Hone) as H3. unfold kO in H3 at 1. cbn [o_st] in H3. rewrite spur_kw in H3. unfold stored in H1. lia.
Qed.
Lemma c52_sender : ∀ s f x, reachable s → sfs s !! f = Some x → send_pending x → woken s (sf_wk x) → ¬ send_waits s x.
Proof.
  intros s f x Hr Hf Hp Hw Hs. rch. destruct (spur_woken s _ Hr Hw) as [H1 H2]. pose proof (reach_wsend s Hr f x Hf) as HG.
  unfold stored in H1. unfold send_waits, sgood in *. destruct (sf_st x) as [| |c| |]; try done; destruct (sf_mode x) as [m|o|]; try done.
  1,2: destruct Hs as (a & w & b & Hc); destruct HG as (y & Hy & HG); simplify_eq; destruct HG as [[= ->]|[[=] _]];
    pose proof (sum_lookup (kC (sf_wk x)) _ _ _ Hc) as H3; unfold kC in H3 at 1; cbn [wc_st] in H3; rewrite spur_kw in H3; lia.
  - destruct Hs as (a & w & b & Hc). destruct HG as (y & Hy & HG). simplify_eq. destruct HG as [[= ->]|[[=] _]].
    pose proof (sum_lookup (kC (sf_wk x)) _ _ _ Hc) as H3. unfold kC in H3 at 1. cbn [wc_st] in H3. rewrite spur_kw in H3. lia.
  - destruct Hs as (a & w & Hc). destruct HG as (y & Hy & HG). simplify_eq. destruct HG as [[= ->]|[[=] _]].
    pose proof (sum_lookup (kR (sf_wk x)) _ _ _ Hc) as H3. unfold kR in H3 at 1. cbn [rp_st] in H3. rewrite spur_kw in H3. lia.
Qed.
Lemma c52_reply : ∀ s i x, reachable s → receiver_pending s i x → woken s (rc_wk x) → ¬ receiver_waits s x.
Proof.
  intros s i [m st l w] Hr (Hx & Hl & Hi & He) Hw (rx & k & Hc). rch. cbn in *. subst. destruct (spur_woken s _ Hr Hw) as [H1 H2].
  destruct (reach_wx s Hr _ _ _ _ Hx He) as (y & Hy & HG). simplify_eq. destruct HG as [[= ->]|[[=] _]].
  pose proof (sum_lookup (kR w) _ _ _ Hc) as H3. unfold kR in H3 at 1. cbn [rp_st] in H3. rewrite spur_kw in H3. unfold stored in H1. lia.
Qed.
Lemma c52_join : ∀ s j x, reachable s → jhs s !! j = Some x → jh_live x = true → join_pending s j → woken s (jh_wk x) →
  newly s (step s (APollJoin j)) (EvJoin j true).
Proof.
  intros s j [l k w] Hr Hj Hl [He Hne] Hw. rch. cbn in *. subst k. destruct (spur_woken s _ Hr Hw) as [H1 H2].
  assert (newly s (api (APollJoin j) s) (EvJoin j true)) as Hn.
  { apply newly_one. cbn [api]. rewrite Hj. destruct l as [l|]; [|done]. destruct (reach_wj s Hr) as [_ W].
    destruct (W _ _ _ _ Hj He) as ([n wk] & Hy & HG). cbn in HG. rewrite Hy. destruct n; [done|]. exfalso.
    destruct HG as [[= ->]|[[=] _]]. pose proof (sum_lookup (kL w) _ _ _ Hy) as H3. unfold kL in H3 at 1. cbn [ls_notified ls_wk] in H3. rewrite spur_kw in H3. unfold stored in H1. lia. }
  destruct Hn as (k & Hb & Hx). unfold step. destruct (collect_log (api (APollJoin j) s)) as (k1 & E1 & _). exists (k1 ++ k). split; [|apply elem_of_app; by right].
  unfold between in *. by rewrite E1, Hb, app_assoc.
Qed.
