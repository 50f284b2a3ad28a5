(** The property statements, derived from the invariants (part I: scoped tasks). *)
From stdpp Require Import base numbers list list_numbers.
From Coq Require Import Lia.
From Verif Require Import Prio Heap State Model Frame Lib Spec Scoped ScopedSpec ScopedProofs ClaimsE.

Lemma c35_history : ∀ c ops, task_history_ok (sc_hist (sc_run c ops)).
Proof. exact task_ok. Qed.
Lemma c35_after_stop : ∀ c ops i j, let x := sc_run c ops in sc_tasks x !! i = Some (TK j TReady) → stopped (sc_main x) →
  sc_hist (sc_step x (SPoll i)) = sc_hist x ++ [TPollJoin i true; TReturn i (Some None)].
Proof.
  cbv zeta. intros c ops i j Hi (H1 & H2 & H3). destruct (sc_inv c ops) as (_ & _ & _ & _ & I5 & _).
  destruct (I5 _ _ Hi I) as (y & Hy & Hl). cbn in Hy, Hl.
  destruct (c33_end _ j y (task_main c ops) H1 H2 H3 Hy) as [Hp _]. specialize (Hp Hl).
  destruct (sc_invJ c ops i _ Hi) as [J1 _]. specialize (J1 (or_introl eq_refl)). cbn in J1.
  destruct (poll_event _ j y true Hy Hl) as [?|E]; [|done|].
  { destruct Hp as (k & Hk & He). unfold between in Hk. rewrite Hk. apply elem_of_app. by left. }
  destruct (sc_run c ops) as [s l h]. cbn in *. rewrite Hi. by rewrite <-E.
Qed.
Lemma c35_none_only : ∀ c ops o k i, let x := sc_run c ops in sc_hist (sc_step x o) = sc_hist x ++ k → TReturn i (Some None) ∈ k →
  o = SPoll i ∧ k = [TPollJoin i true; TReturn i (Some None)] ∧ ¬ is_conn (sc_main x).
Proof.
  cbv zeta. intros c ops o k i Hk Hin. pose proof (task_main c ops) as HR. pose proof (task_poll c ops) as HP. cbv zeta in HP.
  assert (∀ (h : list tev), h = h ++ k → False) as Hno. { intros h E. rewrite <-(app_nil_r h) in E at 1. apply app_inv_head in E. subst k. by apply elem_of_nil in Hin. }
  destruct o as [o|j|q|q r|q].
  - destruct (sc_run c ops) as [s l h]. cbn in *. destruct (foreign l o); cbn in Hk; by apply Hno in Hk.
  - destruct (sc_run c ops) as [s l h]. cbn in *. destruct (jhs s !! j) as [[? [] ?]|]; cbn in Hk; try (by apply Hno in Hk).
    destruct (_ || _); cbn in Hk; try (by apply Hno in Hk). apply app_inv_head in Hk. subst k.
    apply elem_of_list_singleton in Hin. discriminate.
  - destruct (sc_tasks (sc_run c ops) !! q) as [[j st]|] eqn:Hq;
      [|destruct (sc_run c ops) as [s l h]; cbn in *; rewrite Hq in Hk; cbn in Hk; by apply Hno in Hk].
    destruct st; try (destruct (sc_run c ops) as [s l h]; cbn in *; rewrite Hq in Hk; cbn in Hk; by apply Hno in Hk).
    destruct (HP _ _ Hq) as (b & Hn & _ & Eh). rewrite Hk in Eh. apply app_inv_head in Eh. subst k. destruct b.
    + apply elem_of_cons in Hin as [?|Hin]; [discriminate|]. apply elem_of_list_singleton in Hin. injection Hin as <-.
      split; [done|]. split; [done|]. by eapply c33_only.
    + apply elem_of_list_singleton in Hin. discriminate.
  - destruct (sc_run c ops) as [s l h]. cbn in *. destruct (l !! q) as [[? []]|]; cbn in Hk; try (by apply Hno in Hk).
    destruct r; cbn in Hk; apply app_inv_head in Hk; subst k;
      (apply elem_of_cons in Hin as [?|Hin]; [discriminate|apply elem_of_list_singleton in Hin; discriminate]).
  - destruct (sc_run c ops) as [s l h]. cbn in *. destruct (l !! q) as [[? []]|]; cbn in Hk; by apply Hno in Hk.
Qed.
Lemma c35_inner : ∀ c ops i j r, let x := sc_run c ops in sc_tasks x !! i = Some (TK j TInner) →
  sc_hist (sc_step x (SInner i r)) = sc_hist x ++ [TPollInner i r; TReturn i (option_map Some r)] ∧
  sc_main (sc_step x (SInner i r)) = sc_main x.
Proof.
  cbv zeta. intros c ops i j r Hi. destruct (sc_run c ops) as [s l h]. cbn in *. rewrite Hi. by destruct r.
Qed.
Lemma c35_pending_goes_on : ∀ c ops i j, let x := sc_run c ops in sc_tasks x !! i = Some (TK j TReady) → is_conn (sc_main x) →
  sc_hist (sc_step x (SPoll i)) = sc_hist x ++ [TPollJoin i false] ∧ sc_tasks (sc_step x (SPoll i)) !! i = Some (TK j TInner).
Proof.
  cbv zeta. intros c ops i j Hi Hc. destruct (task_poll c ops i j Hi) as (b & Hn & _ & Eh). destruct b.
  { exfalso. by apply (c33_only _ _ _ (task_main c ops) Hn). }
  split; [done|]. destruct (sc_run c ops) as [s l h]. cbn in *. rewrite Hi in Eh |- *.
  destruct (join_resolved _ j); cbn in *; [apply app_inv_head in Eh; discriminate|].
  apply list_lookup_insert. by eapply lookup_lt_Some.
Qed.
Lemma c35_woken : ∀ c ops i j, let x := sc_run c ops in sc_tasks x !! i = Some (TK j TReady) → stopped (sc_main x) →
  last_about i (sc_hist x) (TReturn i None) → ∃ y, jhs (sc_main x) !! j = Some y ∧ woken (sc_main x) (jh_wk y).
Proof.
  cbv zeta. intros c ops i j Hi (H1 & H2 & H3) HL. destruct (task_pending c ops i j Hi HL) as [Hp (y & Hy)].
  exists y. split; [done|]. by apply (c33_end _ j y (task_main c ops) H1 H2 H3 Hy).
Qed.
