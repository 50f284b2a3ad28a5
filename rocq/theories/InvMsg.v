(** Conservation of unicast messages, stage by stage. *)
From stdpp Require Import base numbers list list_numbers.
From Coq Require Import Lia.
From Verif Require Import Prio Heap State Model Frame Lib InvBusy Effects.

(** Is this message number [i]? *)
Definition isn (i m : nat) : nat := if m =? i then 1 else 0.
Definition is (i : nat) (m : umsg) : nat := isn i (um_id m).
Definition lt1 (i n : nat) : nat := if i <? n then 1 else 0.
Arguments isn : simpl never.
Arguments lt1 : simpl never.
Lemma lt1_S i n : lt1 i (S n) = lt1 i n + isn i n.
Proof.
  unfold lt1, isn. destruct (Nat.ltb_spec i (S n)), (Nat.ltb_spec i n), (Nat.eqb_spec n i); lia.
Qed.

(** Stage at which a drop happens. *)
Definition d_pre (y : why) : nat := match y with DSendDropped | DDisconnected | DClosed => 1 | _ => 0 end.
Definition d_mid (y : why) : nat := match y with DCleared | DWindow | DFreed => 1 | _ => 0 end.
Definition d_msg (y : why) : nat := match y with DUserMsg => 1 | _ => 0 end.
Definition d_run (y : why) : nat := match y with DUserRun => 1 | _ => 0 end.

Definition g_drop (d : why → nat) (i : nat) (u : micro) : nat :=
  match u with UDropMsg m y => is i m * d y | _ => 0 end.
Definition e_drop (d : why → nat) (i : nat) (e : ev) : nat :=
  match e with EvDrop m y => isn i m * d y | _ => 0 end.

(** Stage 1: created, not yet accepted. *)
Definition f_pre (i : nat) (f : sfut) : nat :=
  match sf_st f with SNew (PU m) _ => is i m | _ => 0 end.
Definition g_pre (i : nat) (u : micro) : nat :=
  match u with
  | USendLd1 _ (PU m) _ | USendLd2 _ (PU m) _ | USendLock _ (PU m) _ => is i m
  | UDropMsg m y => is i m * d_pre y
  | _ => 0
  end.
Definition e_acc (i : nat) (e : ev) : nat := match e with EvAccept m => isn i m | _ => 0 end.
Definition e_pre (i : nat) (e : ev) : nat :=
  match e with EvAccept m => isn i m | EvDrop m y => isn i m * d_pre y | _ => 0 end.

Definition InvA (s : state) : Prop := ∀ i,
  Σ (f_pre i) (sfs s) + Σ (ccell (is i)) (cells1 s) + msum (g_pre i) s + Σ (e_pre i) (log s)
  = lt1 i (length (reps s)).

(** Stage 2: accepted, not yet received. *)
Definition g_mid (i : nat) (u : micro) : nat :=
  match u with URequeue m => is i m | UDropMsg m y => is i m * d_mid y | _ => 0 end.
Definition e_recv (i : nat) (e : ev) : nat :=
  match e with EvRecv _ (ToOne m) => is i m | _ => 0 end.
Definition e_mid (i : nat) (e : ev) : nat :=
  match e with EvRecv _ (ToOne m) => is i m | EvDrop m y => isn i m * d_mid y | _ => 0 end.

Definition InvB (s : state) : Prop := ∀ i,
  Σ (e_acc i) (log s) =
  Σ (is i) (uq s) + Σ (oone (is i)) (ones s) + msum (g_mid i) s + Σ (e_mid i) (log s).

(** Stage 3: received, handler not yet invoked. *)
Definition h_msg (i : nat) (h : holder) : nat :=
  match h_st h with HMsg (ToOne m) | HDispNew (ToOne m) => is i m | _ => 0 end.
Definition g_msg (i : nat) (u : micro) : nat :=
  match u with UDropMsg m y => is i m * d_msg y | _ => 0 end.
Definition e_handle (i : nat) (e : ev) : nat :=
  match e with EvHandle _ (ToOne m) => is i m | _ => 0 end.
Definition e_msg (i : nat) (e : ev) : nat :=
  match e with EvHandle _ (ToOne m) => is i m | EvDrop m y => isn i m * d_msg y | _ => 0 end.

Definition InvC (s : state) : Prop := ∀ i,
  Σ (e_recv i) (log s) = Σ (h_msg i) (hols s) + msum (g_msg i) s + Σ (e_msg i) (log s).

(** Stage 4: handler running. *)
Definition h_runs (i : nat) (h : holder) : nat :=
  match h_st h with HRun (ToOne m) => is i m | _ => 0 end.
Definition g_run (i : nat) (u : micro) : nat :=
  match u with UDropMsg m y => is i m * d_run y | _ => 0 end.
Definition e_done (i : nat) (e : ev) : nat :=
  match e with EvDone m _ => isn i m | _ => 0 end.
Definition e_run (i : nat) (e : ev) : nat :=
  match e with EvDone m _ => isn i m | EvDrop m y => isn i m * d_run y | _ => 0 end.

Definition InvD (s : state) : Prop := ∀ i,
  Σ (e_handle i) (log s) = Σ (h_runs i) (hols s) + msum (g_run i) s + Σ (e_run i) (log s).

Lemma reach_A s : reach s → InvA s.
Proof.
  revert s. apply reach_inv; unfold InvA.
  - intros c i. done.
  - intros s o Hr I i. specialize (I i).
    do_api o ltac:(autorewrite with fr_sfs fr_cells1 fr_log fr_reps fr_lreps).
    all: rewrite ?app_length in *; cbn [length] in *; rewrite ?Nat.add_1_r, ?lt1_S in *; unfold is in *; cbn [um_id] in *; lia.
  - intros s t u rest s1 new Hr I Ht E Hthr i. pose proof (I i) as Ib.
    pose proof (msum_step (g_pre i) s t u rest new s1 Ht Hthr) as HM.
    pose proof (msum_head (g_pre i) s t u rest Ht) as HH.
    revert HM. generalize (msum (g_pre i) (set_thr (<[t:=new ++ rest]> (thr s1)) s1)). intros n HM.
    prj. clear Hthr.
    assert (∀ f, g_sf f u = 1 → at_ (f_pre i) (sfs s) f = 0) as Hb.
    { intros f Hf. destruct (busyF_at _ _ _ _ _ Hr Ht Hf) as (sf & H1 & H2).
      rewrite !(at_some _ _ _ _ H1). unfold f_pre. by rewrite H2. }
    do_exec u E HM ltac:(autorewrite with fr_sfs fr_cells1 fr_log fr_reps fr_lreps).
    all: repeat (progress (prj; autorewrite with fr_log)); effects (is i).
    all: try (unfold is in *; fin; done).
    all: tokb Hb g_sf; try (unfold is in *; fin; done).
    all: try (destruct wc_alive; cbn in *; lia).

    pose proof (rx_shutdown_meas (is i) (e_pre i) s).
    cbn in *. lapply H; [intros H2; lapply H2; [lia|]|]; intros; unfold is; lia.
  - intros s Hr I Ho i. rewrite (msum_eq _ s) by (autorewrite with fr_thr; done).
    autorewrite with fr_sfs fr_lreps. specialize (I i).
    pose proof (free_meas (is i) (e_pre i) s). cbn in *.
    lapply H; [intros H2; lapply H2; [lia|]|]; intros; unfold is; lia.
Qed.

Lemma reach_B s : reach s → InvB s.
Proof.
  revert s. apply reach_inv; unfold InvB.
  - intros c i. done.
  - intros s o Hr I i. specialize (I i).
    do_api o ltac:(autorewrite with fr_uq fr_ones fr_log).
    all: unfold is in *; cbn [um_id] in *; try lia.
  - intros s t u rest s1 new Hr I Ht E Hthr i. pose proof (I i) as Ib.
    pose proof (msum_step (g_mid i) s t u rest new s1 Ht Hthr) as HM.
    pose proof (msum_head (g_mid i) s t u rest Ht) as HH.
    revert HM. generalize (msum (g_mid i) (set_thr (<[t:=new ++ rest]> (thr s1)) s1)). intros n HM.
    prj. clear Hthr.
    do_exec u E HM ltac:(autorewrite with fr_uq fr_ones fr_log).
    all: repeat (progress (prj; autorewrite with fr_log fr_uq)); effects (is i).
    all: try (unfold is in *; fin; done).
    all: try (effects (is i); unfold is in *; destruct wc_alive; cbn in *; lia).
    1: { rewrite rx_shutdown_uq, !rx_shutdown_log by (intros; cbn; lia).
    rewrite (sum_zero (λ m, e_acc i (EvDrop (um_id m) DCleared))) by done.
    rewrite (sum_ext (λ m, e_mid i (EvDrop (um_id m) DCleared)) (is i)) by (intros; unfold is; cbn; lia).
    simpl. lia. }
    all: try (cbn in *; unfold is in *; lia).
  - intros s Hr I Ho i. rewrite (msum_eq _ s) by (autorewrite with fr_thr; done).
    rewrite free_uq, free_ones, !free_log by (intros; cbn; lia). specialize (I i).
    rewrite (sum_zero (λ m, e_acc i (EvDrop (um_id m) DFreed))) by done.
    rewrite (sum_ext (λ m, e_mid i (EvDrop (um_id m) DFreed)) (is i)) by (intros; unfold is; cbn; lia).
    simpl. lia.
Qed.
