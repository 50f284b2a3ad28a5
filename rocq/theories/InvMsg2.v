(** Conservation of unicast messages: stages 3 and 4 (held by a receiver, handler running). *)
From stdpp Require Import base numbers list list_numbers.
From Coq Require Import Lia.
From Verif Require Import Prio Heap State Model Frame Lib InvBusy Effects InvMsg.

Lemma reach_C s : reach s → InvC s.
Proof.
  revert s. apply reach_inv; unfold InvC.
  - intros c i. done.
  - intros s o Hr I i. specialize (I i).
    do_api o ltac:(autorewrite with fr_hols fr_log).
    all: unfold is in *; cbn [um_id] in *; try lia.
  - intros s t u rest s1 new Hr I Ht E Hthr i. pose proof (I i) as Ib.
    pose proof (msum_step (g_msg i) s t u rest new s1 Ht Hthr) as HM.
    pose proof (msum_head (g_msg i) s t u rest Ht) as HH.
    revert HM. generalize (msum (g_msg i) (set_thr (<[t:=new ++ rest]> (thr s1)) s1)). intros n HM.
    prj. clear Hthr.
    assert (∀ f, g_rf f u = 1 → at_ (h_msg i) (hols s) f = 0) as Hb.
    { intros f Hf. destruct (busyR_at _ _ _ _ _ Hr Ht Hf) as (sf & H1 & H2).
      rewrite !(at_some _ _ _ _ H1). unfold h_msg. by rewrite H2. }
    do_exec u E HM ltac:(autorewrite with fr_hols fr_log).
    all: repeat (progress (prj; autorewrite with fr_log)); effects (is i).
    all: try (unfold is in *; fin; done).
    all: tokb Hb g_rf; try (unfold is in *; fin; done).
    all: rewrite ?rx_shutdown_log0 by (intros; cbn; lia).
    all: try (cbn in *; unfold is in *; lia).
  - intros s Hr I Ho i. rewrite (msum_eq _ s) by (autorewrite with fr_thr; done).
    autorewrite with fr_hols. rewrite !free_log0 by (intros; cbn; lia). apply I.
Qed.

Lemma reach_D s : reach s → InvD s.
Proof.
  revert s. apply reach_inv; unfold InvD.
  - intros c i. done.
  - intros s o Hr I i. specialize (I i).
    do_api o ltac:(autorewrite with fr_hols fr_log).
    all: unfold is in *; cbn [um_id] in *; try lia.
  - intros s t u rest s1 new Hr I Ht E Hthr i. pose proof (I i) as Ib.
    pose proof (msum_step (g_run i) s t u rest new s1 Ht Hthr) as HM.
    pose proof (msum_head (g_run i) s t u rest Ht) as HH.
    revert HM. generalize (msum (g_run i) (set_thr (<[t:=new ++ rest]> (thr s1)) s1)). intros n HM.
    prj. clear Hthr.
    assert (∀ f, g_rf f u = 1 → at_ (h_runs i) (hols s) f = 0) as Hb.
    { intros f Hf. destruct (busyR_at _ _ _ _ _ Hr Ht Hf) as (sf & H1 & H2).
      rewrite !(at_some _ _ _ _ H1). unfold h_runs. by rewrite H2. }
    do_exec u E HM ltac:(autorewrite with fr_hols fr_log).
    all: repeat (progress (prj; autorewrite with fr_log)); effects (is i).
    all: try (unfold is in *; fin; done).
    all: tokb Hb g_rf; try (unfold is in *; fin; done).
    all: rewrite ?rx_shutdown_log0 by (intros; cbn; lia).
    all: try (cbn in *; unfold is in *; lia).
  - intros s Hr I Ho i. rewrite (msum_eq _ s) by (autorewrite with fr_thr; done).
    autorewrite with fr_hols. rewrite !free_log0 by (intros; cbn; lia). apply I.
Qed.
