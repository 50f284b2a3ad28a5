(** Statements, part O: actors on executors. *)
From stdpp Require Import base numbers list list_numbers.
From Coq Require Import Lia.
From Verif Require Import Prio Heap State Model HeapProofs Frame Lib InvBusy InvCount Effects InvMsg InvOne InvOne2 InvBc Mono Events Spec Bridge FinishSpec FinishProofs
  FinalC FinalG FinalI ClaimsA ClaimsB ClaimsE ClaimsN System SystemSpec SystemProofs SystemInv SystemEnd SystemLost.

(** ** Strong addresses and unsent futures do not appear by themselves *)
Notation St s := (Σ a_tx (addrs s) + Σ f_tx (sfs s)).
Lemma St_spec s : strong_addresses s + strong_futures s = St s.
Proof.
  assert (strong_addresses s = Σ a_tx (addrs s)) as -> by (apply cnt_sum; b2n).
  assert (strong_futures s = Σ f_tx (sfs s)) as -> by (apply cnt_sum; b2n). done.
Qed.
Lemma alter_le {A} (g : A → nat) f i l : (∀ x, g (f x) ≤ g x) → Σ g (alter f i l) ≤ Σ g l.
Proof.
  intros H. revert i. induction l as [|a l IH]; intros i; [done|]. destruct i as [|i]; [cbn; specialize (H a); lia|].
  change (alter f (S i) (a :: l)) with (a :: alter f i l). cbn [sum_list_with]. specialize (IH i). lia.
Qed.
Lemma exec_strong u s s1 new : exec u s = (s1, new) → St s1 ≤ St s.
Proof.
  intros E. exec_cases u E; unfold panic_recv, panic_send, send_out; repeat (progress (prj; autorewrite with fr_addrs fr_sfs)); try done.
  all: apply Nat.add_le_mono; [done|].
  all: try (etrans; [apply alter_le|done]; intros [[] ? ? ?]; cbn; lia).
  all: match goal with H : sfs ?s !! ?f = Some ?x |- context [<[?f := ?y]> _] => pose proof (sum_insert f_tx _ _ _ y H) as HI; cbn in HI; lia end.
Qed.
Lemma collect_strong s : St (collect s) = St s.
Proof. unfold collect. destruct (chan_owned s); [done|]. by autorewrite with fr_addrs fr_sfs. Qed.
Lemma inner_strong y l : inner y l → St (ch (sys_step y l)) ≤ St (ch y).
Proof.
  intros [(t & u & -> & [rest Ht])|(i & v & t & [s' st] & -> & Ht & E)]; cbn [sys_step foreign ch].
  - unfold step. rewrite collect_strong. unfold do_step. rewrite Ht. destruct (exec u (ch y)) as [s1 new] eqn:E. by apply exec_strong in E.
  - rewrite Ht, E. cbn [ch].
    destruct (task_cases _ _ _ _ _ E) as [(-> & _)|[(_ & -> & _)|[(r & h & o & _ & Hh & Ho & -> & _)|(_ & -> & _)]]]; [done|..].
    all: unfold step; first [rewrite collect_strong|idtac].
    + cbn [api]. repeat dgoal; done.
    + unfold await_op in Ho. destruct h as [b hs k w]. cbn in Ho. destruct hs; try done; injection Ho as <-; cbn [api]; rewrite Hh; repeat (dgoal; try done); done.
    + cbn [api]. repeat dgoal; done.
Qed.

Lemma c53_settle : ∀ y, sys_reachable y → leads settled y.
Proof. exact actors_settle. Qed.
Lemma c53_left : ∀ c l, hands_off l → uncancelled l →
  leads (λ z, some_actor z → ∀ m, happened (EvAccept m) (ch z) → ∃ v, happened (EvDone m v) (ch z)) (sys_run (sys_init c) l).
Proof. exact no_message_left. Qed.
Lemma c53_stop : ∀ y, sys_reachable y → strong_addresses (ch y) + strong_futures (ch y) = 0 → leads (λ z, ¬ some_actor z) y.
Proof.
  intros y Hy H. apply (leads_all (λ y, sys_reachable y ∧ St (ch y) = 0)); [by intros ? [? _]|..|by rewrite <-St_spec].
  - intros z l [Hz H0] Hl. split; [by apply sys_reachable_step|]. apply inner_strong in Hl. lia.
  - intros z [Hz H0] Hn (i & t & Ht & Hd). destruct (rest_settled z Hz Hn) as [_ HS]. destruct (HS i t Ht) as [?|(r & h & H1)]; [done|].
    rewrite St_spec in H1. destruct H1 as (_ & _ & _ & _ & _ & _ & H1). lia.
Qed.
