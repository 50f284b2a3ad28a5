(** Handles of blocked senders: the queues of handles, and what pops and shutdowns
    do to the cells. *)
From stdpp Require Import base numbers list list_numbers.
From Coq Require Import Lia.
From Verif Require Import Prio Heap State Model HeapProofs Frame Lib InvBusy Effects InvMsg InvFut WaitSpec.

Definition wf1 (s : state) : Prop := wf_handles (cells1 s) (ws1 s).
Definition wfA (s : state) : Prop := wf_handles (cellsA s) (wsA s).
(** No blocked unicast send. *)
Definition noact1 (s : state) : Prop := ∀ c, at_ c_act (cells1 s) c = 0.
Definition noactA (s : state) : Prop := ∀ c, at_ c_act (cellsA s) c = 0.

(** ** Taking one *)
Definition wake_l (w : option waker) (l : list nat) : list nat :=
  match w with Some k => k :: l | None => l end.
Lemma wakes_wake w s : wakes (wake w s) = wake_l w (wakes s).
Proof. by destruct w. Qed.

(** The chosen cell [c] with message [m]: last of maximal priority among the handles of live cells. *)
Definition chosen {A} (key : A → prio) (cs : list (wcell A)) (ws : list nat) (c : nat) (m : A) : Prop :=
  ∃ i, List.filter (cell_active cs) ws !! i = Some c ∧
       is_max (map (cell_prio key cs) (List.filter (cell_active cs) ws)) i (Some (key m)).

Lemma take_waiting1_cases s s' r :
  wf1 s → take_waiting1 s = (s', r) →
  wf1 s' ∧
  ((r = None ∧ noact1 s ∧ cells1 s' = cells1 s ∧ ws1 s' = [] ∧ log s' = log s ∧ wakes s' = wakes s) ∨
   ∃ c m w, r = Some m ∧ cells1 s !! c = Some (WC true (WActive w m)) ∧
     cells1 s' = <[c := WC true WDelivered]> (cells1 s) ∧
     log s' = EvAccept (um_id m) :: log s ∧ wakes s' = wake_l w (wakes s) ∧
     chosen um_prio (cells1 s) (ws1 s) c m).
Proof.
  intros Hwf. unfold take_waiting1. destruct (try_take _ _ _ _) as [[cs ws] x] eqn:E.
  pose proof (try_take_wf _ _ _ _ _ _ _ Hwf E) as Hwf'.
  pose proof (try_take_spec _ _ _ _ _ _ _ Hwf E) as H.
  destruct x as [[m w]|]; intros [= <- <-].
  - destruct H as (c & H1 & -> & H2 & H3 & H4 & H5). split.
    + unfold wf1. autorewrite with fr_cells1 fr_ws1. exact Hwf'.
    + right. exists c, m, w. split_and!; try done.
      * by autorewrite with fr_cells1.
      * prj. by autorewrite with fr_log.
      * prj. by rewrite wakes_wake.
  - destruct H as (-> & -> & H). split; [exact Hwf'|]. left. split_and!; done.
Qed.

Lemma take_waitingA_cases s s' r :
  wfA s → take_waitingA s = (s', r) →
  wfA s' ∧
  ((r = None ∧ noactA s ∧ cellsA s' = cellsA s ∧ wsA s' = [] ∧ wakes s' = wakes s) ∨
   ∃ c m w, r = Some m ∧ cellsA s !! c = Some (WC true (WActive w m)) ∧
     cellsA s' = <[c := WC true WDelivered]> (cellsA s) ∧ wakes s' = wake_l w (wakes s) ∧
     chosen bm_prio (cellsA s) (wsA s) c m).
Proof.
  intros Hwf. unfold take_waitingA. destruct (try_take _ _ _ _) as [[cs ws] x] eqn:E.
  pose proof (try_take_wf _ _ _ _ _ _ _ Hwf E) as Hwf'.
  pose proof (try_take_spec _ _ _ _ _ _ _ Hwf E) as H.
  destruct x as [[m w]|]; intros [= <- <-].
  - destruct H as (c & H1 & -> & H2 & H3 & H4 & H5). split.
    + unfold wfA. autorewrite with fr_cellsA fr_wsA. exact Hwf'.
    + right. exists c, m, w. split_and!; try done.
      * by autorewrite with fr_cellsA.
      * prj. by rewrite wakes_wake.
  - destruct H as (-> & -> & H). split; [exact Hwf'|]. left. split_and!; done.
Qed.

Lemma pop_unicast_cases s s' r :
  wf1 s → pop_unicast s = (s', r) →
  wf1 s' ∧
  ((r = None ∧ s' = s ∧ uq s = []) ∨
   ∃ m h, heap_pop um_prio (uq s) = Some (m, h) ∧ r = Some m ∧
   ((uq s' = h ∧ cells1 s' = cells1 s ∧ log s' = log s ∧ wakes s' = wakes s ∧
     (unicast_full (set_uq h s) = true ∨ noact1 s)) ∨
    ∃ c m2 w, unicast_full (set_uq h s) = false ∧ cells1 s !! c = Some (WC true (WActive w m2)) ∧
     cells1 s' = <[c := WC true WDelivered]> (cells1 s) ∧ uq s' = heap_push um_prio m2 h ∧
     log s' = EvAccept (um_id m2) :: log s ∧ wakes s' = wake_l w (wakes s) ∧
     chosen um_prio (cells1 s) (ws1 s) c m2)).
Proof.
  intros Hwf. unfold pop_unicast. destruct (heap_pop um_prio (uq s)) as [[m h]|] eqn:Hp.
  2: { intros [= <- <-]. split; [done|]. left. split_and!; [done..|].
       by apply heap_pop_None in Hp. }
  cbv zeta. destruct (unicast_full (set_uq h s)) eqn:Hf.
  { intros [= <- <-]. split; [done|]. right. exists m, h. split; [done|]. split; [done|]. left. split_and!; try done. by left. }
  destruct (take_waiting1 (set_uq h s)) as [s2 r2] eqn:E.
  pose proof (take_waiting1_uq (set_uq h s)) as Hu. rewrite E in Hu. cbn [fst uq set_uq] in Hu.
  destruct (take_waiting1_cases (set_uq h s) _ _ Hwf E) as [Hwf' [(-> & A & B & C & D & F)|(c & m2 & w & -> & A & B & C & D & F)]];
    intros [= <- <-]; (split; [exact Hwf'|]); right; exists m, h; (split; [done|]; split; [done|]).
  - left. split_and!; try done. by right.
  - right. exists c, m2, w. split_and!; try done. cbn. by rewrite Hu.
Qed.

(** ** Closing all *)
Definition close_cell {A} (x : wcell A) : wcell A :=
  match x with WC true (WActive _ _) => WC true WClosed | _ => x end.
Lemma close_cell_idem {A} (x : wcell A) : close_cell (close_cell x) = close_cell x.
Proof. by destruct x as [[] []]. Qed.
Lemma fmap_close_id {A} (l : list (wcell A)) : (∀ k, at_ c_act l k = 0) → close_cell <$> l = l.
Proof.
  intros H. apply list_eq. intros i. rewrite list_lookup_fmap. specialize (H i). unfold at_ in H.
  destruct (l !! i) as [[[] []]|]; cbn in *; done.
Qed.
Lemma fmap_close_insert {A} (l : list (wcell A)) i x :
  l !! i = Some x → close_cell <$> <[i := close_cell x]> l = close_cell <$> l.
Proof.
  intros H. rewrite list_fmap_insert, close_cell_idem. apply list_insert_id. by rewrite list_lookup_fmap, H.
Qed.

Lemma close_handles1_cells l s :
  (∀ k, at_ c_act (cells1 s) k ≤ Σ (isn k) l) →
  cells1 (fold_left close_handle1 l s) = close_cell <$> cells1 s.
Proof.
  revert s; induction l as [|c l IH]; intros s H; simpl in *.
  { rewrite fmap_close_id; [done|]. intros k. specialize (H k). lia. }
  assert (cells1 (close_handle1 s c) = match cells1 s !! c with Some x => <[c := close_cell x]> (cells1 s) | _ => cells1 s end) as E.
  { unfold close_handle1. destruct (cells1 s !! c) as [[[] []]|] eqn:E; autorewrite with fr_cells1; prj; try done;
      by rewrite list_insert_id. }
  rewrite IH.
  - rewrite E. destruct (cells1 s !! c) eqn:Hc; [|done]. by apply fmap_close_insert.
  - intros k. specialize (H k). rewrite E. unfold isn in H at 1. destruct (cells1 s !! c) eqn:Hc.
    + rewrite (at_insert _ _ _ _ _ _ Hc). destruct (Nat.eqb_spec c k) as [->|]; [|lia].
      destruct w as [[] []]; cbn; lia.
    + destruct (Nat.eqb_spec c k) as [->|]; [|lia]. unfold at_. rewrite Hc. lia.
Qed.
Lemma close_handlesA_cells l s :
  (∀ k, at_ c_act (cellsA s) k ≤ Σ (isn k) l) →
  cellsA (fold_left close_handleA l s) = close_cell <$> cellsA s.
Proof.
  revert s; induction l as [|c l IH]; intros s H; simpl in *.
  { rewrite fmap_close_id; [done|]. intros k. specialize (H k). lia. }
  assert (cellsA (close_handleA s c) = match cellsA s !! c with Some x => <[c := close_cell x]> (cellsA s) | _ => cellsA s end) as E.
  { unfold close_handleA. destruct (cellsA s !! c) as [[[] []]|] eqn:E; autorewrite with fr_cellsA; prj; try done;
      by rewrite list_insert_id. }
  rewrite IH.
  - rewrite E. destruct (cellsA s !! c) eqn:Hc; [|done]. by apply fmap_close_insert.
  - intros k. specialize (H k). rewrite E. unfold isn in H at 1. destruct (cellsA s !! c) eqn:Hc.
    + rewrite (at_insert _ _ _ _ _ _ Hc). destruct (Nat.eqb_spec c k) as [->|]; [|lia].
      destruct w as [[] []]; cbn; lia.
    + destruct (Nat.eqb_spec c k) as [->|]; [|lia]. unfold at_. rewrite Hc. lia.
Qed.
Lemma rx_shutdown_cells1 s : wf1 s → cells1 (exec_rx_shutdown s) = close_cell <$> cells1 s.
Proof.
  intros Hwf. unfold exec_rx_shutdown. cbv zeta. autorewrite with fr_cells1. prj.
  rewrite close_handles1_cells.
  - f_equal. by repeat (progress (prj; autorewrite with fr_cells1)).
  - intros k. repeat (progress (prj; autorewrite with fr_cells1 fr_ws1)). apply Hwf.
Qed.
Lemma rx_shutdown_cellsA s : wfA s → cellsA (exec_rx_shutdown s) = close_cell <$> cellsA s.
Proof.
  intros Hwf. unfold exec_rx_shutdown. cbv zeta.
  rewrite close_handlesA_cells.
  - f_equal. by repeat (progress (prj; autorewrite with fr_cellsA)).
  - intros k. repeat (progress (prj; autorewrite with fr_cellsA fr_wsA)). apply Hwf.
Qed.
Lemma free_cells1 s : wf1 s → cells1 (free_chan s) = close_cell <$> cells1 s.
Proof.
  intros Hwf. unfold free_chan. cbv zeta. repeat (progress (prj; autorewrite with fr_cells1)).
  rewrite close_handles1_cells; [done|]. intros k. apply Hwf.
Qed.
Lemma free_cellsA s : wfA s → cellsA (free_chan s) = close_cell <$> cellsA s.
Proof.
  intros Hwf. unfold free_chan. cbv zeta. repeat (progress (prj; autorewrite with fr_cellsA)).
  rewrite close_handlesA_cells.
  - f_equal. by repeat (progress (prj; autorewrite with fr_cellsA)).
  - intros k. repeat (progress (prj; autorewrite with fr_cellsA fr_wsA)). apply Hwf.
Qed.
Lemma rx_shutdown_ws1 s : ws1 (exec_rx_shutdown s) = [].
Proof. unfold exec_rx_shutdown. cbv zeta. by repeat (progress (prj; autorewrite with fr_ws1)). Qed.
Lemma rx_shutdown_wsA s : wsA (exec_rx_shutdown s) = [].
Proof. unfold exec_rx_shutdown. cbv zeta. by repeat (progress (prj; autorewrite with fr_wsA)). Qed.
Lemma free_ws1 s : ws1 (free_chan s) = [].
Proof. unfold free_chan. cbv zeta. by repeat (progress (prj; autorewrite with fr_ws1)). Qed.
Lemma free_wsA s : wsA (free_chan s) = [].
Proof. unfold free_chan. cbv zeta. by repeat (progress (prj; autorewrite with fr_wsA)). Qed.

Lemma wf_closed {A} (l : list (wcell A)) : wf_handles (close_cell <$> l) [].
Proof.
  intros c. rewrite fmap_length. unfold at_. rewrite list_lookup_fmap. cbn.
  destruct (l !! c) as [x|] eqn:E; cbn; [|lia]. apply lookup_lt_Some in E. unfold lt1.
  destruct (Nat.ltb_spec c (length l)); [|lia]. destruct x as [[] []]; cbn; lia.
Qed.
Lemma noact_closed {A} (l : list (wcell A)) c : at_ c_act (close_cell <$> l) c = 0.
Proof. unfold at_. rewrite list_lookup_fmap. by destruct (l !! c) as [[[] []]|]. Qed.

(** ** Broadcast side *)
Lemma pop_broadcast_wfA b s s' r : wfA s → pop_broadcast b s = (s', r) → wfA s'.
Proof.
  intros Hwf. unfold pop_broadcast. destruct (heap_pop _ _) as [[m h]|]; [|by intros [= <- <-]]. cbv zeta.
  case_match.
  { intros [= <- <-]. unfold wfA. prj. by autorewrite with fr_cellsA fr_wsA. }
  match goal with |- context [take_waitingA ?x] => destruct (take_waitingA x) as [s2 r2] eqn:E end.
  apply take_waitingA_cases in E as [Hwf' _].
  2: { unfold wfA. prj. by autorewrite with fr_cellsA fr_wsA. }
  destruct r2; intros [= <- <-]; [|done]. unfold wfA. by autorewrite with fr_cellsA fr_wsA.
Qed.

Lemma act_insert {A} (l : list (wcell A)) j x y k :
  l !! j = Some x → c_act y ≤ c_act x → 0 < at_ c_act (<[j := y]> l) k → 0 < at_ c_act l k.
Proof.
  intros Hj Hy. rewrite (at_insert _ _ _ _ _ _ Hj). destruct (Nat.eqb_spec j k) as [->|]; [|done].
  rewrite (at_some _ _ _ _ Hj). lia.
Qed.

Definition InvWs (s : state) : Prop :=
  wf1 s ∧ wfA s ∧ ∀ c, 0 < at_ c_act (cells1 s) c → unicast_full s = true.

Lemma full_eq s s' : cap s = cap s' → uq s = uq s' → unicast_full s = unicast_full s'.
Proof. unfold unicast_full. by intros -> ->. Qed.
Lemma full_len s s' : cap s = cap s' → length (uq s) ≤ length (uq s') → unicast_full s = true → unicast_full s' = true.
Proof. unfold unicast_full. intros -> H. destruct (cap s'); [|done]. rewrite !Nat.leb_le. lia. Qed.

Lemma length_push {A} (key : A → prio) m l : length (heap_push key m l) = S (length l).
Proof. by rewrite (heap_push_perm key m l). Qed.
Lemma length_pop {A} (key : A → prio) m l h : heap_pop key l = Some (m, h) → length l = S (length h).
Proof. intros H. by rewrite (heap_pop_perm _ _ _ _ H). Qed.

Lemma pop_unicast_full s s' r :
  InvWs s → pop_unicast s = (s', r) → ∀ c, 0 < at_ c_act (cells1 s') c → unicast_full s' = true.
Proof.
  intros (W1 & W2 & W3) E c Hc.
  assert (cap s' = cap s) as Hcap by (pose proof (pop_unicast_cap s) as H; by rewrite E in H).
  destruct (pop_unicast_cases _ _ _ W1 E) as [_ [(-> & -> & Hu)|(m & h & Hp & -> & [(A & B & C & D & F)|(k & m2 & w & A & B & C & D & _)])]].
  - eauto.
  - rewrite B in Hc. destruct F as [F|F]; [|rewrite F in Hc; lia].
    rewrite <-F. apply full_eq; done.
  - rewrite C, (at_insert _ _ _ _ _ _ B) in Hc. destruct (Nat.eqb_spec k c); [cbn in Hc; lia|].
    eapply (full_len s); [done| |eauto]. rewrite D, length_push. apply length_pop in Hp. lia.
Qed.

Lemma pop_unicast_full_fst s c :
  InvWs s → 0 < at_ c_act (cells1 (fst (pop_unicast s))) c → unicast_full (fst (pop_unicast s)) = true.
Proof. intros I. destruct (pop_unicast s) eqn:E. by eapply pop_unicast_full. Qed.
Lemma pop_unicast_wf1 s : wf1 s → wf1 (fst (pop_unicast s)).
Proof. intros I. destruct (pop_unicast s) eqn:E. by eapply pop_unicast_cases. Qed.
Lemma pop_broadcast_wfA_fst b s : wfA s → wfA (fst (pop_broadcast b s)).
Proof. intros I. destruct (pop_broadcast b s) eqn:E. by eapply pop_broadcast_wfA. Qed.

Lemma reach_ws s : reach s → InvWs s.
Proof.
  revert s. apply reach_inv; unfold InvWs.
  - intros c. split_and!.
    + intros i. unfold at_. cbn. destruct i; cbn; lia.
    + intros i. unfold at_. cbn. destruct i; cbn; lia.
    + intros i. unfold at_. cbn. destruct i; cbn; lia.
  - intros s o Hr I.
    assert (cells1 (api o s) = cells1 s ∧ ws1 (api o s) = ws1 s ∧ cellsA (api o s) = cellsA s ∧
            wsA (api o s) = wsA s ∧ uq (api o s) = uq s ∧ cap (api o s) = cap s) as (E1 & E2 & E3 & E4 & E5 & E6).
    { destruct o; cbn [api]; repeat (dgoal; try done); cbv zeta; unfold add_addr; repeat dgoal; 
      repeat (progress (prj; autorewrite with fr_cells1 fr_cellsA fr_ws1 fr_wsA fr_uq fr_cap)); done. }
    unfold wf1, wfA. rewrite E1, E2, E3, E4, (full_eq _ _ E6 E5). done.
  - intros s t u rest s1 new Hr (I1 & I2 & I3) Ht E Hthr. unfold wf1, wfA. prj.
    assert ((wf1 s1 ∧ wfA s1) ∧ ∀ c, 0 < at_ c_act (cells1 s1) c → unicast_full s1 = true) as [[]]; [|done].
    clear Ht Hthr. unfold wf1, wfA in *.
    destruct u; cbn [exec] in E.
    all: unfold exec_try_recv, exec_poll_one, exec_send_lock, exec_send_cell1, exec_send_cellA, exec_send_ok, exec_cancel, panic_recv, panic_send in E.
    all: repeat (dmatch E; cbv zeta in E); injection E as <- <-.
    all: repeat (progress (prj; autorewrite with fr_cells1 fr_cellsA fr_ws1 fr_wsA)).
    all: try (split; done).
    all: try (split; [done|]; intros ? Hc; rewrite (full_eq _ s);
      [by eapply I3|by repeat (progress (prj; autorewrite with fr_cap))|by repeat (progress (prj; autorewrite with fr_uq))]).
    1: { rewrite rx_shutdown_cells1, rx_shutdown_cellsA, rx_shutdown_ws1, rx_shutdown_wsA by done.
         split; [split; apply wf_closed|]. intros c. rewrite noact_closed. lia. }
    all: split; [split; try done|intros kk Hk; rewrite ?at_snoc in Hk;
      try (eapply act_insert in Hk; [|eassumption|repeat match goal with b : bool |- _ => destruct b end; cbn; lia])].
    all: try (rewrite (full_eq _ s);
      [by eapply I3|by repeat (progress (prj; autorewrite with fr_cap))|by repeat (progress (prj; autorewrite with fr_uq))]).
    all: try (by apply wf_new).
    all: try (eapply wf_insert; [done|eassumption|..]; repeat match goal with b : bool |- _ => destruct b end; cbn; lia).
    1: { rewrite <-Em1. apply full_eq; by repeat (progress (prj; autorewrite with fr_cap fr_uq)). }
    all: try (by apply pop_unicast_wf1); try (by apply pop_broadcast_wfA_fst).
    all: try (erewrite (full_eq _ (fst (pop_unicast s)));
      [by eapply pop_unicast_full_fst|by repeat (progress (prj; autorewrite with fr_cap))|
       by repeat (progress (prj; autorewrite with fr_uq))]; done).
    all: eapply (full_len s); [by repeat (progress (prj; autorewrite with fr_cap))| |by eapply I3];
      repeat (progress (prj; autorewrite with fr_uq)); rewrite length_push; lia.
  - intros s Hr (I1 & I2 & I3) Ho. unfold wf1, wfA.
    rewrite free_cells1, free_cellsA, free_ws1, free_wsA by done. split_and!; try apply wf_closed.
    intros c. rewrite noact_closed. lia.
Qed.
