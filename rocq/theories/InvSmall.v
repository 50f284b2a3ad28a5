(** Small invariants: who waits for which reply, one-shot channels, causes of drops and errors. *)
From stdpp Require Import base numbers list list_numbers.
From Coq Require Import Lia.
From Verif Require Import Prio Heap State Model HeapProofs Frame Lib InvBusy InvCount Effects InvMsg InvOne InvDisc InvFut InvCell WaitSpec InvWs InvBlk Mono InvSend InvErr Events.

(** ** Every message has exactly one reply receiver: its future or one detached receiver *)
Definition f_is (m : nat) (x : sfut) : nat :=
  match sf_mode x with MReturn k | MDetached (Some k) => isn m k | _ => 0 end.
Definition x_is (m : nat) (x : rcv) : nat := isn m (rc_m x).
Definition InvUniq (s : state) : Prop := ∀ m, Σ (f_is m) (sfs s) + Σ (x_is m) (rcvs s) = lt1 m (length (reps s)).
Lemma reach_uniq s : reach s → InvUniq s.
Proof.
  revert s. apply reach_inv; unfold InvUniq.
  - done.
  - intros s o Hr I m. specialize (I m).
    destruct o; cbn [api]; repeat (dgoal; try done); cbv zeta; unfold add_addr; repeat dgoal;
      repeat (progress (prj; autorewrite with fr_sfs fr_rcvs fr_reps fr_lreps)); sums; cbn in *; unfold x_is in *; cbn in *; try lia.
    all: try (rewrite app_length; cbn [length]; rewrite Nat.add_1_r, lt1_S; lia).
    all: try (unfold f_is in *; cbn in *; lia).
  - intros s t u rest s1 new Hr I Ht E Hthr m. specialize (I m). prj. clear Hthr Ht.
    exec_cases u E; repeat (progress (prj; autorewrite with fr_sfs fr_rcvs fr_reps fr_lreps)); sums; cbn in *; ats; unfold x_is, f_is in *; cbn in *; try lia.
    all: try (rewrite Em0 in *; lia).
    all: try (unfold at_ in *; repeat case_match; cbn in *; simplify_eq; lia).
  - intros s Hr I Ho m. autorewrite with fr_sfs fr_rcvs fr_reps fr_lreps. apply I.
Qed.

(** ** Views of the one-shot channels that sending does not change *)
Section oview.
  Context {B : Type} (v : one → B).
  Context (v_send : ∀ w c, v (ON true (OFull c)) = v (ON true (OEmpty w))).
  Context (v_close : ∀ rx w, v (ON rx OClosed) = v (ON rx (OEmpty w))).
  Let vs (s : state) : list B := v <$> ones s.
  Lemma vs_eq s s' : ones s = ones s' → vs s = vs s'.
  Proof. unfold vs. by intros ->. Qed.
  Lemma one_send_vs o c s : vs (fst (one_send o c s)) = vs s.
  Proof.
    unfold one_send. destruct (ones s !! o) as [[[] []]|] eqn:E; try done. cbn [fst]. unfold vs.
    autorewrite with fr_ones. prj. by eapply fmap_insert_same.
  Qed.
  Lemma one_sends_vs l c s : vs (fold_left (λ s o, fst (one_send o c s)) l s) = vs s.
  Proof. apply fold_left_proj. intros. apply one_send_vs. Qed.
  Lemma close_ones_vs l s : vs (fold_left close_one l s) = vs s.
  Proof.
    apply fold_left_proj. intros s' o. unfold close_one.
    destruct (ones s' !! o) as [[rx []]|] eqn:E; try done. unfold vs.
    autorewrite with fr_ones. prj. by eapply fmap_insert_same.
  Qed.
  Lemma fulfill_vs ws m s : vs (fst (fulfill ws m s)) = vs s.
  Proof.
    revert s; induction ws as [|o ws IH]; intros s; simpl; [done|].
    pose proof (one_send_vs o (CNewMsg m) s) as H.
    destruct (one_send o (CNewMsg m) s) as [s' []]; cbn [fst] in *; [done|]. by rewrite IH.
  Qed.
  Lemma send_broadcast_vs m s : vs (send_broadcast m s) = vs s.
  Proof.
    unfold send_broadcast. cbv zeta. match goal with |- vs (emit _ (set_tail _ ?x)) = _ => change (vs x = vs s) end.
    rewrite one_sends_vs. apply vs_eq. prj. by autorewrite with fr_ones.
  Qed.
  Lemma pop_broadcast_vs b s : vs (fst (pop_broadcast b s)) = vs s.
  Proof.
    unfold pop_broadcast. destruct (heap_pop _ _) as [[m h]|]; [|done]. cbv zeta.
    case_match; cbn [fst]; [apply vs_eq; prj; by autorewrite with fr_ones|].
    match goal with |- context [take_waitingA ?x] => dpair (take_waitingA x) end.
    destruct r1; cbn [fst]; rewrite ?send_broadcast_vs; apply vs_eq;
      autorewrite with fr_ones; prj; by autorewrite with fr_ones.
  Qed.
  Lemma free_vs s : vs (free_chan s) = vs s.
  Proof.
    unfold free_chan. cbv zeta. etrans; [apply vs_eq; repeat (progress (prj; autorewrite with fr_ones)); reflexivity|].
    rewrite close_ones_vs. apply vs_eq. by repeat (progress (prj; autorewrite with fr_ones)).
  Qed.
  Lemma try_fulfill_vs m s : vs (fst (try_fulfill_receiver m s)) = vs s.
  Proof. apply fulfill_vs. Qed.
End oview.

(** A message never sits in a one-shot channel whose receiving half is gone. *)
Definition o_ff (x : one) : nat := match x with ON false (OFull _) => 1 | _ => 0 end.
Definition FF (s : state) : Prop := Forall (λ n, n = 0) (o_ff <$> ones s).
Lemma FF_eq s s' : o_ff <$> ones s' = o_ff <$> ones s → FF s → FF s'.
Proof. unfold FF. by intros ->. Qed.
Lemma FF_ones s s' : ones s' = ones s → FF s → FF s'.
Proof. unfold FF. by intros ->. Qed.
Lemma reach_ff s : reach s → FF s.
Proof.
  revert s. apply reach_inv.
  - constructor.
  - intros s o Hr I. revert I. apply FF_ones.
    destruct o; cbn [api]; repeat (dgoal; try done); cbv zeta; unfold add_addr; repeat dgoal;
      by repeat (progress (prj; autorewrite with fr_ones)).
  - intros s t u rest s1 new Hr I Ht E Hthr. clear Hthr Ht.
    change (FF s1). 
    exec_cases u E; try (revert I; apply FF_ones; by repeat (progress (prj; autorewrite with fr_ones))).
    all: try (unfold FF in *; repeat (progress (prj; autorewrite with fr_ones)); rewrite ?list_fmap_insert, ?fmap_app;
      first [by apply Forall_insert|apply Forall_app; split; [done|by repeat constructor]]).
    all: try (revert I; apply FF_eq; autorewrite with fr_ones; prj; autorewrite with fr_ones;
       rewrite ?(one_send_vs o_ff), ?(try_fulfill_vs o_ff), ?(send_broadcast_vs o_ff), ?(pop_broadcast_vs o_ff) by done; done).
    all: try (unfold FF in *; repeat (progress (prj; autorewrite with fr_ones)); rewrite ?list_fmap_insert; apply Forall_insert; [done|]; repeat match goal with b : bool |- _ => destruct b end; done).
  - intros s Hr I Ho. revert I. apply FF_eq. by apply (free_vs o_ff).
Qed.

(** ** Causes of drops *)

(** Messages are dropped by calls for these reasons only. *)
Definition g_clr (u : micro) : nat := match u with UDropMsg _ (DCleared | DFreed | DClosed) => 1 | _ => 0 end.
Lemma reach_gclr s : reach s → msum g_clr s = 0.
Proof.
  revert s. apply reach_inv.
  - done.
  - intros s o Hr I1. do_api o ltac:(autorewrite with fr_thr).
  - intros s t u rest s1 new Hr I1 Ht E Hthr.
    pose proof (msum_step g_clr _ _ _ _ new _ Ht Hthr) as HM. rewrite I1 in HM.
    pose proof (msum_head g_clr _ _ _ _ Ht) as HH. rewrite I1 in HH.
    exec_cases u E; rewrite ?sum_list_with_app in HM; try (rewrite sum_notify in HM by done);
        split_lists; cbn in *; repeat case_match; cbn in *; try lia.
  - intros s Hr I Ho. by rewrite (msum_eq g_clr s (free_chan s)) by (by autorewrite with fr_thr).
Qed.

(** A queued message is discarded only when no mailbox is left. *)
Lemma reach_clr s : reach s → ∀ m, EvDrop m DCleared ∈ log s → rxc s = 0.
Proof.
  revert s. apply (reach_inv (λ s, ∀ m, EvDrop m DCleared ∈ log s → rxc s = 0)).
  - by intros c m ?%elem_of_nil.
  - intros s o Hr I m H. apply rxc0_api; [done|]. destruct (api_evs o s) as [He|(e & He & Hs)]; rewrite He in H; [by eapply I|].
    apply elem_of_cons in H as [<-|H]; [done|by eapply I].
  - intros s t u rest s1 new Hr I Ht E Hthr m H. prj. cbn in H.
    pose proof (rxc0_exec s u) as HR. rewrite E in HR. cbn [fst] in HR. apply HR.
    destruct (exec_evs _ _ _ _ E) as (k & Hk & Hs). rewrite Hk in H. apply elem_of_app in H as [H|H]; [|by eapply I].
    apply Hs in H. destruct H as [[-> _]|(x & -> & _)].
    + apply (reach_rs s Hr). pose proof (msum_head g_rs _ _ _ _ Ht). cbn in *. lia.
    + pose proof (msum_head g_clr _ _ _ _ Ht). rewrite (reach_gclr s Hr) in *. cbn in *. lia.
  - intros s Hr I Ho m H. destruct (free_evs s) as (k & Hk & Hs). rewrite Hk in H. apply elem_of_app in H as [H|H].
    + apply Hs in H as (m' & y & ? & [-> | ->]); done.
    + autorewrite with fr_rxc. by eapply I.
Qed.

(** ** Once nothing refers to the channel any more, that stays so *)
Definition g_own (u : micro) : nat :=
  match u with
  | USendCell1 _ _ | USendCellA _ _ | USendOk _ | USendErr _ | UReplyPoll _ _ | URepDrop _ | UCellDrop1 _ | UCellDropA _
  | UDropMsg _ _ | URcvPoll _ => 0
  | _ => 1
  end.
Definition f_new (x : sfut) : nat := if sf_live x then match sf_st x with SNew _ _ => 1 | _ => 0 end else 0.
Definition h_any (h : holder) : nat := match h_st h with HGone => 0 | _ => 1 end.
Definition a_any (a : addr) : nat := if ad_live a then 1 else 0.
Definition nown (s : state) : nat := Σ a_any (addrs s) + Σ h_any (hols s) + Σ f_new (sfs s) + msum g_own s.

Ltac own_lk :=
  try match goal with E : addrs _ !! _ = Some _ |- _ => pose proof (sum_lookup a_any _ _ _ E) end;
  try match goal with E : hols _ !! _ = Some _ |- _ => pose proof (sum_lookup h_any _ _ _ E) end;
  try match goal with E : sfs _ !! _ = Some _ |- _ => pose proof (sum_lookup f_new _ _ _ E) end.
Lemma nown_api s o : nown s = 0 → nown (api o s) = 0.
Proof.
  unfold nown. intros H.
  destruct o; cbn [api]; repeat (dgoal; try done); cbv zeta; split_drops; unfold add_addr, tx_drop, payload_drop, amsg_drop, rx_drop; repeat dgoal;
   unfold msum in *; repeat (progress (prj; autorewrite with fr_addrs fr_hols fr_sfs fr_thr)); sums; own_lk; cbn in *; unfold is_mailbox in *; try lia; repeat case_match; cbn in *; try lia.
  all: match goal with H : h_st ?h = _, H0 : h_any ?h ≤ _ |- _ => assert (h_any h = 1) by (unfold h_any; by rewrite H) end; lia.
Qed.
Lemma nown_exec s t u rest s1 new : nown s = 0 → thr s !! t = Some (u :: rest) → exec u s = (s1, new) → thr s1 = thr s →
  nown (set_thr (<[t := new ++ rest]> (thr s1)) s1) = 0.
Proof.
  unfold nown. intros H Ht E Hthr.
  pose proof (msum_step g_own _ _ _ _ new _ Ht Hthr) as HM.
  pose proof (msum_head g_own _ _ _ _ Ht) as HH. revert HM.
  generalize (msum g_own (set_thr (<[t:=new ++ rest]> (thr s1)) s1)). intros n HM. prj.
  exec_cases u E; cbn in HH; try (exfalso; cbn in *; lia);
    repeat (progress (prj; autorewrite with fr_addrs fr_hols fr_sfs)); sums; own_lk; cbn in *; ats; try lia;
    unfold f_new in *; cbn in *; repeat case_match; try lia.
  assert (at_ (λ x : sfut, if sf_live x then 0 else 0) (sfs s) f ≤ 0) by (apply at_bound; intros; by case_match). lia.
Qed.
Lemma nown_free s : nown s = 0 → nown (free_chan s) = 0.
Proof. unfold nown, msum. by autorewrite with fr_addrs fr_hols fr_sfs fr_thr. Qed.
Lemma owned_nown s : chan_owned s = false → nown s = 0.
Proof.
  unfold chan_owned, nown. rewrite !orb_false_iff. intros [[[H1 H2] H3] H4].
  assert (∀ A (p : A → bool) l, existsb p l = false → ∀ x, x ∈ l → p x = false) as HE.
  { intros A p l Hp x Hx. destruct (p x) eqn:E; [|done]. assert (existsb p l = true) as Hq; [|congruence].
    apply existsb_exists. exists x. by rewrite <-elem_of_list_In. }
  rewrite (sum_zero a_any), (sum_zero h_any), (sum_zero f_new); unfold msum; [rewrite sum_zero; [done|]| | |].
  - intros p Hp. specialize (HE _ _ _ H4 _ Hp). by destruct p.
  - intros x Hx. specialize (HE _ _ _ H3 _ Hx). unfold f_new. cbn in HE. repeat case_match; done.
  - intros x Hx. specialize (HE _ _ _ H2 _ Hx). unfold h_any. cbn in HE. repeat case_match; done.
  - intros x Hx. specialize (HE _ _ _ H1 _ Hx). unfold a_any. cbn in HE. by rewrite HE.
Qed.

(** A message is discarded with the channel only when nothing refers to it any more. *)
Lemma reach_freed s : reach s → ∀ m, EvDrop m DFreed ∈ log s → nown s = 0.
Proof.
  revert s. apply (reach_inv (λ s, ∀ m, EvDrop m DFreed ∈ log s → nown s = 0)).
  - by intros c m ?%elem_of_nil.
  - intros s o Hr I m H. apply nown_api. destruct (api_evs o s) as [He|(e & He & Hs)]; rewrite He in H; [by eapply I|].
    apply elem_of_cons in H as [<-|H]; [done|by eapply I].
  - intros s t u rest s1 new Hr I Ht E Hthr m H. cbn in H. eapply nown_exec; try done.
    destruct (exec_evs _ _ _ _ E) as (k & Hk & Hs). rewrite Hk in H. apply elem_of_app in H as [H|H]; [|by eapply I].
    apply Hs in H. destruct H as [[-> [? | ?]]|(x & -> & _)]; [done|done|].
    pose proof (msum_head g_clr _ _ _ _ Ht). rewrite (reach_gclr s Hr) in *. cbn in *. lia.
  - intros s Hr I Ho m H. by apply nown_free, owned_nown.
Qed.
