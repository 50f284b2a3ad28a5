(** What the compound model functions do to messages and to the history, as
    equations between measures. *)
From stdpp Require Import base numbers list list_numbers.
From Coq Require Import Lia.
From Verif Require Import Prio Heap State Model Frame Lib HeapProofs.

Definition omap (c : umsg → nat) (o : option umsg) : nat :=
  match o with Some m => c m | None => 0 end.

(** Message in a waiting-sender cell / in a one-shot channel. *)
Definition ccell (c : umsg → nat) (x : wcell umsg) : nat :=
  match x with WC true (WActive _ m) => c m | _ => 0 end.
Definition oone (c : umsg → nat) (x : one) : nat :=
  match o_st x with OFull (CNewMsg m) => c m | _ => 0 end.

(** ** Heap *)
Lemma sum_push {A} (key : A → prio) (c : A → nat) m l : Σ c (heap_push key m l) = c m + Σ c l.
Proof. by rewrite (sum_perm _ _ _ (heap_push_perm key m l)). Qed.
Lemma sum_pop {A} (key : A → prio) (c : A → nat) m l h :
  heap_pop key l = Some (m, h) → Σ c l = c m + Σ c h.
Proof. intros H. by rewrite (sum_perm _ _ _ (heap_pop_perm _ _ _ _ H)). Qed.

(** ** Handing a message to a waiting receiver *)
Lemma one_send_true o x s s' :
  one_send o x s = (s', true) →
  ∃ w, ones s !! o = Some (ON true (OEmpty w)) ∧ ones s' = <[o := ON true (OFull x)]> (ones s).
Proof.
  unfold one_send. repeat case_match; try done. intros [= <-].
  eexists. split; [done|]. by autorewrite with fr_ones.
Qed.
Lemma one_send_false o x s s' : one_send o x s = (s', false) → s' = s.
Proof. unfold one_send. repeat case_match; try done; by intros [= <-]. Qed.

Lemma fulfill_ones c ws m s :
  Σ (oone c) (ones (fst (fulfill ws m s))) =
  Σ (oone c) (ones s) + (if snd (fulfill ws m s) then c m else 0).
Proof.
  revert s; induction ws as [|o ws IH]; intros s; simpl; [lia|].
  destruct (one_send o (CNewMsg m) s) as [s' []] eqn:E; cbn [fst snd].
  - apply one_send_true in E as (w & H1 & H2). cbn [ones set_wrx]. rewrite H2.
    pose proof (sum_insert (oone c) _ _ _ (ON true (OFull (CNewMsg m))) H1). cbn in *. lia.
  - apply one_send_false in E as ->. apply IH.
Qed.
Lemma try_fulfill_ones c m s :
  Σ (oone c) (ones (fst (try_fulfill_receiver m s))) =
  Σ (oone c) (ones s) + (if snd (try_fulfill_receiver m s) then c m else 0).
Proof. apply fulfill_ones. Qed.

Lemma one_send_quiet c o x s :
  match x with CNewMsg _ => False | _ => True end →
  Σ (oone c) (ones (fst (one_send o x s))) = Σ (oone c) (ones s).
Proof.
  intros Hx. destruct (one_send o x s) as [s' []] eqn:E; cbn [fst].
  - apply one_send_true in E as (w & H1 & ->).
    pose proof (sum_insert (oone c) _ _ _ (ON true (OFull x)) H1). destruct x; try done; cbn in *; lia.
  - by apply one_send_false in E as ->.
Qed.
Lemma one_sends_quiet c l x s :
  match x with CNewMsg _ => False | _ => True end →
  Σ (oone c) (ones (fold_left (λ s o, fst (one_send o x s)) l s)) = Σ (oone c) (ones s).
Proof.
  intros Hx. revert s; induction l as [|o l IH]; intros s; simpl; [done|].
  rewrite IH. by apply one_send_quiet.
Qed.

(** ** Taking a blocked sender's message *)
Lemma try_take_cells c n cs ws cs' ws' r :
  try_take um_prio n cs ws = (cs', ws', r) →
  Σ (ccell c) cs' + omap c (option_map fst r) = Σ (ccell c) cs.
Proof.
  revert cs ws; induction n as [|n IH]; intros cs ws; cbn [try_take].
  { intros [= <- <- <-]. cbn. lia. }
  destruct (find_remove um_prio cs ws) as [w2 [k|]]; [|intros [= <- <- <-]; cbn; lia].
  unfold take_message. destruct (cs !! k) as [[[] [w m| |]]|] eqn:E; cbn.
  - intros [= <- <- <-]. cbn.
    pose proof (sum_insert (ccell c) _ _ _ (WC true WDelivered) E). cbn in *. lia.
  - intros H%IH. pose proof (sum_insert (ccell c) _ _ _ (WC true WDelivered) E). cbn in *. lia.
  - intros H%IH. pose proof (sum_insert (ccell c) _ _ _ (WC true WDelivered) E). cbn in *. lia.
  - by intros H%IH.
  - by intros H%IH.
  - by intros H%IH.
  - by intros H%IH.
Qed.

Definition acc_ev (o : option umsg) : list ev :=
  match o with Some m => [EvAccept (um_id m)] | None => [] end.

Lemma take_waiting1_spec s :
  (∀ c, Σ (ccell c) (cells1 (fst (take_waiting1 s))) + omap c (snd (take_waiting1 s))
        = Σ (ccell c) (cells1 s)) ∧
  log (fst (take_waiting1 s)) = acc_ev (snd (take_waiting1 s)) ++ log s.
Proof.
  unfold take_waiting1. destruct (try_take _ _ _ _) as [[cs ws] r] eqn:E.
  destruct r as [[m w]|]; cbn [fst snd acc_ev app].
  - split; [|cbn; by autorewrite with fr_log].
    intros c. apply (try_take_cells c) in E. autorewrite with fr_cells1. exact E.
  - split; [|done]. intros c. apply (try_take_cells c) in E. exact E.
Qed.

Lemma pop_unicast_spec s :
  ∃ x, (∀ c, Σ (ccell c) (cells1 (fst (pop_unicast s))) + omap c x = Σ (ccell c) (cells1 s)) ∧
       (∀ c, Σ c (uq (fst (pop_unicast s))) + omap c (snd (pop_unicast s)) = Σ c (uq s) + omap c x) ∧
       log (fst (pop_unicast s)) = acc_ev x ++ log s.
Proof.
  unfold pop_unicast. destruct (heap_pop um_prio (uq s)) as [[m h]|] eqn:E; cbn [fst snd].
  2: { exists None. cbn. split_and!; [intros; lia|intros; lia|done]. }
  assert (∀ c, Σ c (uq s) = c m + Σ c h) as H by (intros; by eapply sum_pop).
  case_match; cbn [fst snd].
  { exists None. cbn. split_and!; [intros; lia|intros c; specialize (H c); lia|done]. }
  destruct (take_waiting1_spec (set_uq h s)) as [H1 H2].
  pose proof (take_waiting1_uq (set_uq h s)) as H3.
  destruct (take_waiting1 (set_uq h s)) as [s2 r]; cbn [fst snd] in *.
  exists r. destruct r as [m2|]; cbn [fst snd].
  - split_and!.
    + intros c. autorewrite with fr_cells1. apply H1.
    + intros c. unfold push_unicast. prj. rewrite sum_push, H3. prj. specialize (H c). cbn in *. lia.
    + autorewrite with fr_log. exact H2.
  - split_and!; [apply H1| |done]. intros c. rewrite H3. prj. specialize (H c). cbn. lia.
Qed.

(** ** Drops *)
Lemma drop_umsgs_log e y l s :
  Σ e (log (drop_umsgs y l s)) = Σ e (log s) + Σ (λ m, e (EvDrop (um_id m) y)) l.
Proof.
  unfold drop_umsgs. revert s; induction l as [|m l IH]; intros s; simpl; [lia|].
  rewrite IH. unfold drop_umsg. prj. autorewrite with fr_log. simpl. lia.
Qed.

Lemma close_handle1_meas (c : umsg → nat) e s k :
  (∀ m, e (EvDrop (um_id m) DClosed) = c m) →
  Σ (ccell c) (cells1 (close_handle1 s k)) + Σ e (log (close_handle1 s k)) =
  Σ (ccell c) (cells1 s) + Σ e (log s).
Proof.
  intros He. unfold close_handle1. destruct (cells1 s !! k) as [[[] [w m| |]]|] eqn:E; try done.
  autorewrite with fr_cells1. unfold drop_umsg. prj. autorewrite with fr_log. prj.
  pose proof (sum_insert (ccell c) _ _ _ (WC true WClosed) E). simpl. rewrite He. cbn in *. lia.
Qed.
Lemma close_handles1_meas (c : umsg → nat) e l s :
  (∀ m, e (EvDrop (um_id m) DClosed) = c m) →
  Σ (ccell c) (cells1 (fold_left close_handle1 l s)) + Σ e (log (fold_left close_handle1 l s)) =
  Σ (ccell c) (cells1 s) + Σ e (log s).
Proof.
  intros He. revert s; induction l as [|k l IH]; intros s; simpl; [done|].
  rewrite IH. by apply close_handle1_meas.
Qed.
Lemma close_handle1_log e s k :
  (∀ m, e (EvDrop m DClosed) = 0) → Σ e (log (close_handle1 s k)) = Σ e (log s).
Proof.
  intros He. unfold close_handle1. destruct (cells1 s !! k) as [[[] [w m| |]]|] eqn:E; try done.
  unfold drop_umsg. prj. autorewrite with fr_log. prj. simpl. by rewrite He.
Qed.
Lemma close_handles1_log e l s :
  (∀ m, e (EvDrop m DClosed) = 0) → Σ e (log (fold_left close_handle1 l s)) = Σ e (log s).
Proof.
  intros He. revert s; induction l as [|k l IH]; intros s; simpl; [done|].
  rewrite IH. by apply close_handle1_log.
Qed.

(** ** Broadcasts leave unicast history alone *)
Lemma send_broadcast_log m s :
  log (send_broadcast m s) = EvBcast m (List.filter (bq_live s) (bqs s)) :: log s.
Proof. unfold send_broadcast. cbv zeta. prj. by repeat (progress (prj; autorewrite with fr_log)). Qed.
Lemma send_broadcast_ones c m s : Σ (oone c) (ones (send_broadcast m s)) = Σ (oone c) (ones s).
Proof.
  unfold send_broadcast. cbv zeta. prj. rewrite one_sends_quiet by done. prj.
  by autorewrite with fr_ones.
Qed.
Definition bq_evs (r : option (bmsg * list nat)) : list ev :=
  match r with Some (m, l) => [EvBcast m l] | None => [] end.
Lemma pop_broadcast_log b s : ∃ r, log (fst (pop_broadcast b s)) = bq_evs r ++ log s.
Proof.
  unfold pop_broadcast. destruct (heap_pop _ _) as [[m h]|]; [|by exists None]. cbv zeta.
  case_match; cbn [fst].
  { exists None. prj. by autorewrite with fr_log. }
  match goal with |- context [take_waitingA ?x] => dpair (take_waitingA x) end.
  destruct r1 as [m2|]; cbn [fst].
  - eexists (Some (m2, _)). rewrite send_broadcast_log. cbn. f_equal. by autorewrite with fr_log; prj; autorewrite with fr_log.
  - exists None. cbn. autorewrite with fr_log. prj. by autorewrite with fr_log.
Qed.
Lemma pop_broadcast_logm e b s :
  (∀ m l, e (EvBcast m l) = 0) → Σ e (log (fst (pop_broadcast b s))) = Σ e (log s).
Proof.
  intros He. destruct (pop_broadcast_log b s) as [[[m l]|] ->]; [|done]. simpl. by rewrite He.
Qed.
Lemma send_broadcast_logm e m s :
  (∀ m l, e (EvBcast m l) = 0) → Σ e (log (send_broadcast m s)) = Σ e (log s).
Proof. intros He. rewrite send_broadcast_log. simpl. by rewrite He. Qed.
Lemma pop_broadcast_ones c b s :
  Σ (oone c) (ones (fst (pop_broadcast b s))) = Σ (oone c) (ones s).
Proof.
  unfold pop_broadcast. destruct (heap_pop _ _) as [[m h]|]; [|done]. cbv zeta.
  case_match; cbn [fst]; [prj; by autorewrite with fr_ones|].
  match goal with |- context [take_waitingA ?x] => dpair (take_waitingA x) end.
  destruct r1 as [m2|]; cbn [fst]; rewrite ?send_broadcast_ones;
    autorewrite with fr_ones; prj; by autorewrite with fr_ones.
Qed.

(** ** Shutdown and teardown *)
Lemma rx_shutdown_meas (c : umsg → nat) e s :
  (∀ m, e (EvDrop (um_id m) DClosed) = c m) →
  (∀ m, e (EvDrop m DCleared) = 0) →
  Σ (ccell c) (cells1 (exec_rx_shutdown s)) + Σ e (log (exec_rx_shutdown s)) =
  Σ (ccell c) (cells1 s) + Σ e (log s).
Proof.
  intros H1 H2. unfold exec_rx_shutdown. cbv zeta. autorewrite with fr_cells1 fr_log.
  repeat (progress (prj; autorewrite with fr_cells1 fr_log)).
  rewrite close_handles1_meas by done.
  repeat (progress (prj; autorewrite with fr_cells1 fr_log)).
  rewrite drop_umsgs_log. prj. rewrite (sum_zero (λ m, e (EvDrop (um_id m) DCleared))) by done.
  autorewrite with fr_log fr_cells1. lia.
Qed.
Lemma rx_shutdown_log e s :
  (∀ m, e (EvDrop m DClosed) = 0) →
  Σ e (log (exec_rx_shutdown s)) = Σ e (log s) + Σ (λ m, e (EvDrop (um_id m) DCleared)) (uq s).
Proof.
  intros H1. unfold exec_rx_shutdown. cbv zeta. autorewrite with fr_log.
  repeat (progress (prj; autorewrite with fr_log)).
  rewrite close_handles1_log by done.
  repeat (progress (prj; autorewrite with fr_log)).
  rewrite drop_umsgs_log. prj. autorewrite with fr_log. f_equal. f_equal. by autorewrite with fr_uq.
Qed.
Lemma rx_shutdown_uq s : uq (exec_rx_shutdown s) = [].
Proof.
  unfold exec_rx_shutdown. cbv zeta. repeat (progress (prj; autorewrite with fr_uq)). done.
Qed.

Lemma close_ones_meas c l s : Σ (oone c) (ones (fold_left close_one l s)) = Σ (oone c) (ones s).
Proof.
  revert s; induction l as [|k l IH]; intros s; simpl; [done|]. rewrite IH.
  unfold close_one. destruct (ones s !! k) as [[rx []]|] eqn:E; try done.
  autorewrite with fr_ones. prj.
  pose proof (sum_insert (oone c) _ _ _ (ON rx OClosed) E). cbn in *. lia.
Qed.

Lemma free_meas (c : umsg → nat) e s :
  (∀ m, e (EvDrop (um_id m) DClosed) = c m) →
  (∀ m, e (EvDrop m DFreed) = 0) →
  Σ (ccell c) (cells1 (free_chan s)) + Σ e (log (free_chan s)) =
  Σ (ccell c) (cells1 s) + Σ e (log s).
Proof.
  intros H1 H2. unfold free_chan. cbv zeta.
  repeat (progress (prj; autorewrite with fr_cells1 fr_log)).
  rewrite drop_umsgs_log. prj. rewrite (sum_zero (λ m, e (EvDrop (um_id m) DFreed))) by done.
  repeat (progress (prj; autorewrite with fr_cells1 fr_log)).
  pose proof (close_handles1_meas c e (ws1 s) (set_ws1 [] s) H1) as H. prj. cbn in H. lia.
Qed.
Lemma free_log e s :
  (∀ m, e (EvDrop m DClosed) = 0) →
  Σ e (log (free_chan s)) = Σ e (log s) + Σ (λ m, e (EvDrop (um_id m) DFreed)) (uq s).
Proof.
  intros H1. unfold free_chan. cbv zeta.
  repeat (progress (prj; autorewrite with fr_log)).
  rewrite drop_umsgs_log. repeat (progress (prj; autorewrite with fr_log fr_uq)).
  rewrite close_handles1_log by done. done.
Qed.
Lemma free_uq s : uq (free_chan s) = [].
Proof.
  unfold free_chan. cbv zeta. repeat (progress (prj; autorewrite with fr_uq)). done.
Qed.
Lemma free_ones c s : Σ (oone c) (ones (free_chan s)) = Σ (oone c) (ones s).
Proof.
  unfold free_chan. cbv zeta. repeat (progress (prj; autorewrite with fr_ones)).
  rewrite close_ones_meas. repeat (progress (prj; autorewrite with fr_ones)). done.
Qed.

(** ** Number of reply channels ever created *)
Lemma close_reply_lreps m s : length (reps (close_reply m s)) = length (reps s).
Proof.
  unfold close_reply. repeat case_match; try done. autorewrite with fr_reps. prj.
  by rewrite insert_length.
Qed.
Lemma drop_umsg_lreps y m s : length (reps (drop_umsg y m s)) = length (reps s).
Proof. apply close_reply_lreps. Qed.
Lemma drop_umsgs_lreps y l s : length (reps (drop_umsgs y l s)) = length (reps s).
Proof. unfold drop_umsgs. apply (fold_left_proj (λ s, length (reps s))). intros. apply drop_umsg_lreps. Qed.
Lemma close_handle1_lreps s c : length (reps (close_handle1 s c)) = length (reps s).
Proof.
  unfold close_handle1. repeat case_match; try done. rewrite drop_umsg_lreps.
  autorewrite with fr_reps. done.
Qed.
Lemma close_handles1_lreps l s : length (reps (fold_left close_handle1 l s)) = length (reps s).
Proof. apply (fold_left_proj (λ s, length (reps s))). intros. apply close_handle1_lreps. Qed.
#[export] Hint Rewrite close_reply_lreps drop_umsg_lreps drop_umsgs_lreps close_handles1_lreps : fr_lreps.
Lemma rx_shutdown_lreps s : length (reps (exec_rx_shutdown s)) = length (reps s).
Proof.
  unfold exec_rx_shutdown. cbv zeta. by repeat (progress (prj; autorewrite with fr_reps fr_lreps)).
Qed.
Lemma free_chan_lreps s : length (reps (free_chan s)) = length (reps s).
Proof.
  unfold free_chan. cbv zeta. by repeat (progress (prj; autorewrite with fr_reps fr_lreps)).
Qed.
Lemma poll_reply_lreps m w s : length (reps (fst (poll_reply m w s))) = length (reps s).
Proof. unfold poll_reply. repeat case_match; try done; cbn; by rewrite insert_length. Qed.
Lemma insert_lreps m x (l : list rep) : length (<[m := x]> l) = length l.
Proof. apply insert_length. Qed.
#[export] Hint Rewrite rx_shutdown_lreps free_chan_lreps poll_reply_lreps insert_lreps : fr_lreps.

Lemma send_out_log f x o s : log (send_out f x o s) = EvSend f o :: log s.
Proof. unfold send_out. prj. by autorewrite with fr_log. Qed.
Lemma deliver_log r a s : log (deliver r a s) = EvRecv r a :: log s.
Proof. unfold deliver. prj. by autorewrite with fr_log. Qed.
Lemma drop_umsg_log y m s : log (drop_umsg y m s) = EvDrop (um_id m) y :: log s.
Proof. unfold drop_umsg. prj. by autorewrite with fr_log. Qed.
Lemma push_unicast_uq m s : uq (push_unicast m s) = heap_push um_prio m (uq s).
Proof. done. Qed.
#[export] Hint Rewrite send_out_log deliver_log drop_umsg_log send_broadcast_log : fr_log.
#[export] Hint Rewrite push_unicast_uq : fr_uq.

(** Use the effect lemmas for the call in the goal. *)
Ltac effects c :=
  cbn [sum_list_with app];
  repeat match goal with
  | |- context [pop_unicast ?s] =>
      let x := fresh "x" in let H1 := fresh "P1" in let H2 := fresh "P2" in let H3 := fresh "P3" in
      destruct (pop_unicast_spec s) as (x & H1 & H2 & H3);
      specialize (H1 c); specialize (H2 c); rewrite ?H3;
      repeat match goal with H : snd (pop_unicast s) = _ |- _ => rewrite H in H2; clear H end;
      revert H1 H2; clear H3;
      generalize (Σ (ccell c) (cells1 (fst (pop_unicast s))));
      generalize (Σ c (uq (fst (pop_unicast s))));
      destruct x; cbn [acc_ev omap app]; intros ? ? H1 H2;
      try (generalize (fst (pop_unicast s)); intros ?);
      try (generalize (snd (pop_unicast s)); intros ?)
  | |- context [Σ ?e (log (fst (pop_broadcast ?b ?s)))] => rewrite (pop_broadcast_logm e b s) by done
  | |- context [Σ ?e (ones (fst (pop_broadcast ?b ?s)))] => rewrite (pop_broadcast_ones _ b s)
  | |- context [Σ ?e (ones (send_broadcast ?b ?s))] => rewrite (send_broadcast_ones _ b s)
  | |- context [Σ ?e (ones (fst (one_send ?b ?x ?s)))] => rewrite (one_send_quiet _ b x s) by done
  | |- context [Σ ?e (ones (fst (try_fulfill_receiver ?m ?s)))] =>
      rewrite (try_fulfill_ones _ m s);
      repeat match goal with H : snd (try_fulfill_receiver m s) = _ |- _ => rewrite H; clear H end
  | |- context [Σ ?e (heap_push ?k ?m ?l)] => rewrite (sum_push k e m l)
  end; cbn [sum_list_with].

Lemma rx_shutdown_log0 e s :
  (∀ m, e (EvDrop m DClosed) = 0) → (∀ m, e (EvDrop m DCleared) = 0) →
  Σ e (log (exec_rx_shutdown s)) = Σ e (log s).
Proof.
  intros H1 H2. rewrite rx_shutdown_log by done.
  rewrite (sum_zero (λ m, e (EvDrop (um_id m) DCleared))) by done. lia.
Qed.
Lemma free_log0 e s :
  (∀ m, e (EvDrop m DClosed) = 0) → (∀ m, e (EvDrop m DFreed) = 0) →
  Σ e (log (free_chan s)) = Σ e (log s).
Proof.
  intros H1 H2. rewrite free_log by done.
  rewrite (sum_zero (λ m, e (EvDrop (um_id m) DFreed))) by done. lia.
Qed.
