(** Cells of blocked senders: each has exactly one owner, and knows its message. *)
From stdpp Require Import base numbers list list_numbers.
From Coq Require Import Lia.
From Verif Require Import Prio Heap State Model Frame Lib InvBusy Effects InvMsg InvFut.

(** ** One owner *)
Definition c_live {A} (x : wcell A) : nat := if wc_alive x then 1 else 0.
Definition f_c1 (c : nat) (sf : sfut) : nat :=
  match sf_st sf, sf_mode sf with SWait k, MBroadcast => 0 | SWait k, _ => isn c k | _, _ => 0 end.
Definition f_cA (c : nat) (sf : sfut) : nat :=
  match sf_st sf, sf_mode sf with SWait k, MBroadcast => isn c k | _, _ => 0 end.
Definition g_c1 (c : nat) (u : micro) : nat :=
  match u with USendCell1 _ k | UCellDrop1 k => isn c k | _ => 0 end.
Definition g_cA (c : nat) (u : micro) : nat :=
  match u with USendCellA _ k | UCellDropA k => isn c k | _ => 0 end.

Definition InvCell (s : state) : Prop := ∀ c,
  at_ c_live (cells1 s) c = Σ (f_c1 c) (sfs s) + msum (g_c1 c) s ∧
  at_ c_live (cellsA s) c = Σ (f_cA c) (sfs s) + msum (g_cA c) s.

(** Which cells are alive changes only by their owners. *)
Definition lives1 (s : state) : list bool := wc_alive <$> cells1 s.
Definition livesA (s : state) : list bool := wc_alive <$> cellsA s.
Lemma at_lives1 s c : at_ c_live (cells1 s) c = at_ (λ b : bool, if b then 1 else 0) (lives1 s) c.
Proof. unfold lives1, at_. rewrite list_lookup_fmap. by destruct (cells1 s !! c). Qed.
Lemma at_livesA s c : at_ c_live (cellsA s) c = at_ (λ b : bool, if b then 1 else 0) (livesA s) c.
Proof. unfold livesA, at_. rewrite list_lookup_fmap. by destruct (cellsA s !! c). Qed.
Lemma fmap_insert_same {A B} (f : A → B) (l : list A) i x y :
  l !! i = Some x → f y = f x → f <$> <[i := y]> l = f <$> l.
Proof.
  intros Hi Hf. rewrite list_fmap_insert, Hf. apply list_insert_id. by rewrite list_lookup_fmap, Hi.
Qed.
Lemma take_message_lives {A} (cs : list (wcell A)) c : wc_alive <$> fst (take_message cs c) = wc_alive <$> cs.
Proof.
  unfold take_message. destruct (cs !! c) as [[[] []]|] eqn:E; cbn [fst]; try done;
    by eapply fmap_insert_same.
Qed.
Lemma try_take_lives {A} (key : A → prio) n cs ws cs' ws' r :
  try_take key n cs ws = (cs', ws', r) → wc_alive <$> cs' = wc_alive <$> cs.
Proof.
  revert cs ws; induction n as [|n IH]; intros cs ws; cbn [try_take]; [by intros [= <- <- <-]|].
  destruct (find_remove key cs ws) as [w2 [k|]]; [|by intros [= <- <- <-]].
  pose proof (take_message_lives cs k) as H. destruct (take_message cs k) as [cs2 [r2|]]; cbn [fst] in H.
  - by intros [= <- <- <-].
  - intros H2%IH. congruence.
Qed.
Lemma take_waiting1_lives s : lives1 (fst (take_waiting1 s)) = lives1 s.
Proof.
  unfold take_waiting1. destruct (try_take _ _ _ _) as [[cs ws] r] eqn:E.
  apply try_take_lives in E. unfold lives1. destruct r as [[m w]|]; cbn [fst]; autorewrite with fr_cells1; prj; done.
Qed.
Lemma take_waitingA_lives s : livesA (fst (take_waitingA s)) = livesA s.
Proof.
  unfold take_waitingA. destruct (try_take _ _ _ _) as [[cs ws] r] eqn:E.
  apply try_take_lives in E. unfold livesA. destruct r as [[m w]|]; cbn [fst]; autorewrite with fr_cellsA; prj; done.
Qed.
Lemma lives1_eq s s' : cells1 s = cells1 s' → lives1 s = lives1 s'.
Proof. unfold lives1. by intros ->. Qed.
Lemma livesA_eq s s' : cellsA s = cellsA s' → livesA s = livesA s'.
Proof. unfold livesA. by intros ->. Qed.
Lemma pop_unicast_lives s : lives1 (fst (pop_unicast s)) = lives1 s.
Proof.
  unfold pop_unicast. destruct (heap_pop _ _) as [[m h]|]; [|done]. cbv zeta. case_match; [done|].
  match goal with |- context [take_waiting1 ?x] => dpair (take_waiting1 x) end.
  destruct r1; cbn [fst]; [etrans; [apply lives1_eq; autorewrite with fr_cells1; reflexivity|]|]; by rewrite take_waiting1_lives.
Qed.
Lemma send_broadcast_lives m s : livesA (send_broadcast m s) = livesA s.
Proof. apply livesA_eq. by autorewrite with fr_cellsA. Qed.
Lemma pop_broadcast_lives b s : livesA (fst (pop_broadcast b s)) = livesA s.
Proof.
  unfold pop_broadcast. destruct (heap_pop _ _) as [[m h]|]; [|done]. cbv zeta.
  case_match; cbn [fst]; [apply livesA_eq; prj; by autorewrite with fr_cellsA|].
  match goal with |- context [take_waitingA ?x] => dpair (take_waitingA x) end.
  destruct r1; cbn [fst]; rewrite ?send_broadcast_lives, take_waitingA_lives; apply livesA_eq; prj; by autorewrite with fr_cellsA.
Qed.
Lemma close_handle1_lives s c : lives1 (close_handle1 s c) = lives1 s.
Proof.
  unfold close_handle1. destruct (cells1 s !! c) as [[[] []]|] eqn:E; try done.
  unfold lives1. autorewrite with fr_cells1. prj. by eapply fmap_insert_same.
Qed.
Lemma close_handleA_lives s c : livesA (close_handleA s c) = livesA s.
Proof.
  unfold close_handleA. destruct (cellsA s !! c) as [[[] []]|] eqn:E; try done.
  unfold livesA. autorewrite with fr_cellsA. prj. by eapply fmap_insert_same.
Qed.
Lemma close_handles1_lives l s : lives1 (fold_left close_handle1 l s) = lives1 s.
Proof. apply fold_left_proj. intros. apply close_handle1_lives. Qed.
Lemma close_handlesA_lives l s : livesA (fold_left close_handleA l s) = livesA s.
Proof. apply fold_left_proj. intros. apply close_handleA_lives. Qed.
Lemma rx_shutdown_lives s : lives1 (exec_rx_shutdown s) = lives1 s ∧ livesA (exec_rx_shutdown s) = livesA s.
Proof.
  unfold exec_rx_shutdown. cbv zeta. split.
  - unfold lives1. autorewrite with fr_cells1. prj.
    match goal with |- wc_alive <$> cells1 (fold_left _ ?l ?x) = _ => pose proof (close_handles1_lives l x) as HL end.
    unfold lives1 in HL. etrans; [exact HL|]. first [done|f_equal; by repeat (progress (prj; autorewrite with fr_cells1))].
  - rewrite close_handlesA_lives. apply livesA_eq. by repeat (progress (prj; autorewrite with fr_cellsA)).
Qed.
Lemma free_lives s : lives1 (free_chan s) = lives1 s ∧ livesA (free_chan s) = livesA s.
Proof.
  unfold free_chan. cbv zeta. split.
  - unfold lives1. repeat (progress (prj; autorewrite with fr_cells1)).
    match goal with |- wc_alive <$> cells1 (fold_left _ ?l ?x) = _ => pose proof (close_handles1_lives l x) as HL end.
    unfold lives1 in HL. etrans; [exact HL|]. first [done|f_equal; by repeat (progress (prj; autorewrite with fr_cells1))].
  - unfold livesA. repeat (progress (prj; autorewrite with fr_cellsA)).
    match goal with |- wc_alive <$> cellsA (fold_left _ ?l ?x) = _ => pose proof (close_handlesA_lives l x) as HL end.
    unfold livesA in HL. etrans; [exact HL|]. first [done|f_equal; by repeat (progress (prj; autorewrite with fr_cellsA))].
Qed.
Lemma pop_unicast_cl s c : at_ c_live (cells1 (fst (pop_unicast s))) c = at_ c_live (cells1 s) c.
Proof. by rewrite !at_lives1, pop_unicast_lives. Qed.
Lemma pop_broadcast_cl b s c : at_ c_live (cellsA (fst (pop_broadcast b s))) c = at_ c_live (cellsA s) c.
Proof. by rewrite !at_livesA, pop_broadcast_lives. Qed.
Lemma rx_shutdown_cl s c : at_ c_live (cells1 (exec_rx_shutdown s)) c = at_ c_live (cells1 s) c.
Proof. by rewrite !at_lives1, (proj1 (rx_shutdown_lives s)). Qed.
Lemma rx_shutdown_clA s c : at_ c_live (cellsA (exec_rx_shutdown s)) c = at_ c_live (cellsA s) c.
Proof. by rewrite !at_livesA, (proj2 (rx_shutdown_lives s)). Qed.
Lemma free_cl s c : at_ c_live (cells1 (free_chan s)) c = at_ c_live (cells1 s) c.
Proof. by rewrite !at_lives1, (proj1 (free_lives s)). Qed.
Lemma free_clA s c : at_ c_live (cellsA (free_chan s)) c = at_ c_live (cellsA s) c.
Proof. by rewrite !at_livesA, (proj2 (free_lives s)). Qed.
#[export] Hint Rewrite pop_unicast_cl pop_broadcast_cl rx_shutdown_cl rx_shutdown_clA free_cl free_clA : fr_cl.

Lemma g_c1_le f c u : (λ u, match u with USendCell1 g k => isn f g * isn c k | _ => 0 end) u ≤ g_c1 c u.
Proof. destruct u; cbn; unfold isn; repeat case_match; lia. Qed.

Lemma reach_cell s : reach s → InvCell s.
Proof.
  revert s. apply reach_inv; unfold InvCell.
  - intros c i. unfold at_. cbn. destruct i; cbn; lia.
  - intros s o Hr I i. specialize (I i). destruct I as [I1 I2].
    split; do_api o ltac:(autorewrite with fr_cells1 fr_cellsA fr_sfs).
    all: unfold isn in *; try lia.
  - intros s t u rest s1 new Hr I Ht E Hthr i. destruct (I i) as [I1 I2].
    pose proof (msum_step (g_c1 i) s t u rest new s1 Ht Hthr) as HM.
    pose proof (msum_step (g_cA i) s t u rest new s1 Ht Hthr) as HM2.
    revert HM HM2. generalize (msum (g_c1 i) (set_thr (<[t:=new ++ rest]> (thr s1)) s1)).
    generalize (msum (g_cA i) (set_thr (<[t:=new ++ rest]> (thr s1)) s1)). intros n2 n HM HM2.
    prj. clear Hthr.
    pose proof (at_bound c_live (cells1 s) i 1 ltac:(intros [[] ?]; cbn; lia)) as HL1.
    pose proof (at_bound c_live (cellsA s) i 1 ltac:(intros [[] ?]; cbn; lia)) as HL2.
    pose proof (msum_head (g_c1 i) s t u rest Ht) as HH1.
    pose proof (msum_head (g_cA i) s t u rest Ht) as HH2.
    pose proof (at_ge c_live (cells1 s) i) as G1. pose proof (at_ge c_live (cellsA s) i) as G2.
    assert (∀ f, g_sf f u = 1 → at_ (f_c1 i) (sfs s) f = 0 ∧ at_ (f_cA i) (sfs s) f = 0 ∧
       ∃ sf, sfs s !! f = Some sf ∧ (g_uni f u = 1 → sf_mode sf ≠ MBroadcast)
             ∧ (g_bro f u = 1 → sf_mode sf = MBroadcast)) as Hb.
    { intros f Hf. destruct (busyF_at _ _ _ _ _ Hr Ht Hf) as (sf & H1 & H2).
      rewrite !(at_some _ _ _ _ H1). unfold f_c1, f_cA. rewrite H2. split_and!; [done..|].
      exists sf. split; [done|]. pose proof (reach_K s Hr f 0) as (_ & K2 & K3 & _ & _).
      pose proof (msum_head (g_uni f) s t u rest Ht). pose proof (msum_head (g_bro f) s t u rest Ht).
      ats. unfold fk in *. split; intros.
      - intros Hm. rewrite Hm in *. lia.
      - destruct (sf_mode sf) as [|[]|]; lia || done. }
    do_exec u E HM ltac:(autorewrite with fr_cells1 fr_cellsA fr_sfs fr_cl).
    all: rewrite ?sum_list_with_app in HM2; try (rewrite sum_notify in HM2 by done).
    all: cbn -[Nat.eqb Nat.sub] in HM2.
    all: try (split; lia).
    all: try (unfold isn in *; fin; done).
    all: autorewrite with fr_cells1 fr_cellsA in HM; autorewrite with fr_cells1 fr_cellsA in HM2.
    all: tokb Hb g_sf; try (destruct Hb0 as (B1 & B2 & sf & Hsf & B3 & B4); unfold isn in *; fin; done).
    all: destruct Hb0 as (B1 & B2 & sf & Hsf & B3 & B4); cbn in B3, B4; unfold isn in B3, B4;
      rewrite ?Nat.eqb_refl in *; simplify_eq; ats; unfold f_c1, f_cA, c_live in *; cbn in *;
      first [specialize (B3 eq_refl)|specialize (B4 eq_refl)]; match goal with H : context [sf_mode ?x] |- _ => destruct (sf_mode x) end; try done;
      unfold isn in *; case_eqb; subst; ats; cbn in *; destruct wc_alive; lia.
  - intros s Hr I Ho i. rewrite (msum_eq (g_c1 i) s), (msum_eq (g_cA i) s) by (autorewrite with fr_thr; done).
    autorewrite with fr_sfs fr_cl. apply I.
Qed.

