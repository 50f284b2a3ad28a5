(** Actors on executors come to rest. *)
From stdpp Require Import base numbers list list_numbers.
From Coq Require Import Lia.
From Verif Require Import Prio Heap State Model HeapProofs Frame Lib InvBusy Effects InvMsg InvOne InvOne2 InvBc Mono Events Spec Bridge FinishSpec FinishProofs System SystemSpec.

(** ** The measure: messages under way and receiver-side objects *)
Definition emp (os : list one) (o : nat) : bool := match os !! o with Some (ON _ (OEmpty _)) => true | _ => false end.
Definition stopping (a : amsg) : bool := match a with Shut | ToAll (BStop _) => true | _ => false end.
Definition hws (os : list one) (x : hstate) : nat :=
  match x with
  | HMailbox | HGone => 0 | HRecvNew => 18 | HRecvBusy => 12 | HRecvWait o => if emp os o then 0 else 17
  | HMsg a => if stopping a then 12 else 28 | HDispNew a => if stopping a then 11 else 27 | HRun _ => 26
  end.
Definition hw (os : list one) (h : holder) : nat := hws os (h_st h).
Definition HW (s : state) : nat := Σ (hw (ones s)) (hols s).
Definition qlen (q : bqueue) : nat := length (bq_heap q).
Definition Mc (s : state) : nat :=
  length (uq s) + Σ qlen (bqueues s) + Σ (oone (λ _, 1)) (ones s) + Σ (ccell (λ _, 1)) (cells1 s).
Definition ex (u : micro) : nat := match u with UTxNotify _ => 17 | URequeue _ | UCancel _ => 37 | _ => 0 end.

Lemma HW_mono os os' hs : (∀ o, emp os o = true → emp os' o = true) → Σ (hw os') hs ≤ Σ (hw os) hs.
Proof.
  intros H. induction hs as [|h hs IH]; [done|]. cbn [sum_list_with]. enough (hw os' h ≤ hw os h) by lia.
  unfold hw, hws. destruct (h_st h); try done. specialize (H o). destruct (emp os o); [by rewrite H|]. destruct (emp os' o); lia.
Qed.
Lemma HW_one os os' o hs : (∀ k, k ≠ o → emp os k = true → emp os' k = true) → Σ (hw os') hs ≤ Σ (hw os) hs + 17 * Σ (h_wait o) hs.
Proof.
  intros H. induction hs as [|h hs IH]; [done|]. cbn [sum_list_with]. enough (hw os' h ≤ hw os h + 17 * h_wait o h) by lia.
  unfold hw, hws, h_wait. destruct (h_st h) as [| | |k| | | |]; try lia. unfold isn. destruct (Nat.eqb_spec k o) as [->|Hk].
  - destruct (emp os o), (emp os' o); lia.
  - specialize (H k Hk). destruct (emp os k); [rewrite H by done; lia|]. destruct (emp os' k); lia.
Qed.
Lemma emp_insert os o x k : o < length os → emp (<[o:=x]> os) k = if k =? o then match x with ON _ (OEmpty _) => true | _ => false end else emp os k.
Proof.
  intros H. unfold emp. destruct (Nat.eqb_spec k o) as [->|]; [by rewrite list_lookup_insert|]. by rewrite list_lookup_insert_ne.
Qed.
Lemma emp_snoc os x k : emp os k = true → emp (os ++ [x]) k = true.
Proof. unfold emp. destruct (os !! k) eqn:E; [|done]. by rewrite (lookup_app_l_Some _ _ _ _ E). Qed.
(** A change that does not fill the one-shot. *)
Lemma HW_same os o x y hs : os !! o = Some x → (match o_st x with OEmpty _ => False | _ => True end ∨ match o_st y with OEmpty _ => True | _ => False end) →
  Σ (hw (<[o:=y]> os)) hs ≤ Σ (hw os) hs.
Proof.
  intros Ho Hx. apply HW_mono. intros k. rewrite emp_insert by (by eapply lookup_lt_Some). destruct (Nat.eqb_spec k o) as [->|]; [|done].
  unfold emp. rewrite Ho. destruct x as [? []], y as [? []]; cbn in *; tauto || done.
Qed.
Lemma wait_le s o : reach s → Σ (h_wait o) (hols s) ≤ 1.
Proof. intros Hr. destruct (reach_own s Hr o). lia. Qed.

Lemma one_send_hw o c s : reach s → HW (fst (one_send o c s)) ≤ HW s + (if snd (one_send o c s) then 17 else 0).
Proof.
  intros Hr. unfold one_send. destruct (ones s !! o) as [[[] []]|] eqn:E; cbn [fst snd]; try lia. unfold HW.
  repeat (progress (prj; autorewrite with fr_ones fr_hols)). etrans; [apply (HW_one (ones s) _ o)|].
  - intros k Hk. rewrite emp_insert by (by eapply lookup_lt_Some). by rewrite (proj2 (Nat.eqb_neq k o) Hk).
  - pose proof (wait_le s o Hr). lia.
Qed.
Lemma fulfill_hw ws m s : reach s → HW (fst (fulfill ws m s)) ≤ HW s + (if snd (fulfill ws m s) then 17 else 0).
Proof.
  intros Hr. induction ws as [|o ws IH]; [cbn; unfold HW; cbn; lia|]. cbn [fulfill]. pose proof (one_send_hw o (CNewMsg m) s Hr) as H.
  destruct (one_send o (CNewMsg m) s) as [s' []] eqn:E; cbn [fst snd] in *; [done|]. apply one_send_false in E as ->. done.
Qed.
Lemma len_sum {A} (l : list A) : length l = Σ (λ _, 1) l.
Proof. induction l; cbn; lia. Qed.
Lemma pop_uni_M s : length (uq (fst (pop_unicast s))) + Σ (ccell (λ _, 1)) (cells1 (fst (pop_unicast s))) + (if snd (pop_unicast s) then 1 else 0) = length (uq s) + Σ (ccell (λ _, 1)) (cells1 s).
Proof.
  destruct (pop_unicast_spec s) as (x & H1 & H2 & _). specialize (H1 (λ _, 1)). specialize (H2 (λ _, 1)). rewrite !len_sum.
  destruct (snd (pop_unicast s)); cbn in *; lia.
Qed.
Lemma qlen_put b h s : b < length (bqueues s) → Σ qlen (bqueues (bq_put b h s)) + length (bq_get s b) = Σ qlen (bqueues s) + length h.
Proof.
  intros Hb. unfold bq_put, bq_get. destruct (bqueues s !! b) as [q|] eqn:E; [|apply lookup_ge_None in E; lia]. prj.
  pose proof (sum_insert qlen _ _ _ (BQ (bq_refs q) h) E) as H. unfold qlen in *. cbn in *. lia.
Qed.
Lemma pop_bc_M b s : Ac (fst (pop_broadcast b s)) < Ac s ∨
  (Σ qlen (bqueues (fst (pop_broadcast b s))) + (if snd (pop_broadcast b s) then 1 else 0) = Σ qlen (bqueues s) ∧ ones (fst (pop_broadcast b s)) = ones s).
Proof.
  destruct (pop_broadcast_cases b s) as [[-> ->]|(m & h & Hp & -> & HC)]; [right; split; [lia|done]|].
  assert (Σ qlen (bqueues (pop_put b h s)) + 1 = Σ qlen (bqueues s)) as HQ.
  { unfold pop_put. prj. pose proof (qlen_put b h s) as H. apply heap_pop_perm, Permutation_length in Hp. cbn in Hp.
    destruct (decide (b < length (bqueues s))) as [Hb|Hb]; [specialize (H Hb); lia|]. exfalso.
    unfold bq_get in Hp. rewrite (lookup_ge_None_2 (bqueues s) b) in Hp by lia. done. }
  assert (ones (pop_put b h s) = ones s) as E2 by (unfold pop_put; by repeat (progress (prj; autorewrite with fr_ones))).
  destruct HC as [[_ ->]|(_ & s3 & x & T & Hq & ->)]; [by right|].
  pose proof (take_waitingA_sum (λ _, 1) (pop_put b h s)) as H. pose proof (take_waitingA_ones (pop_put b h s)) as H2. rewrite T in H, H2. cbn [fst snd] in H, H2.
  assert (cellsA (pop_put b h s) = cellsA s) as E1 by (unfold pop_put; by repeat (progress (prj; autorewrite with fr_cellsA))).
  rewrite E1 in H. rewrite E2 in H2. destruct x as [m2|]; cbn in H.
  - left. repeat (progress (prj; autorewrite with fr_cellsA)). lia.
  - right. destruct Hq as (Hq & _). rewrite Hq. split; [lia|done].
Qed.
Lemma close1_M l s : Σ (ccell (λ _, 1)) (cells1 (fold_left close_handle1 l s)) ≤ Σ (ccell (λ _, 1)) (cells1 s).
Proof.
  revert s; induction l as [|c l IH]; intros s; [done|]. cbn [fold_left]. etrans; [apply IH|].
  unfold close_handle1. repeat dgoal; try done. repeat (progress (prj; autorewrite with fr_cells1)).
  match goal with |- context [<[?c := ?y]> (cells1 s)] => pose proof (sum_insert (ccell (λ _, 1)) (cells1 s) c _ y ltac:(eassumption)) as H end.
  cbn in H. lia.
Qed.
Lemma shut_M s : length (uq (exec_rx_shutdown s)) + Σ (ccell (λ _, 1)) (cells1 (exec_rx_shutdown s)) ≤ Σ (ccell (λ _, 1)) (cells1 s).
Proof.
  rewrite rx_shutdown_uq. cbn. unfold exec_rx_shutdown. cbv zeta. repeat (progress (prj; autorewrite with fr_cells1)). etrans; [apply close1_M|].
  by repeat (progress (prj; autorewrite with fr_cells1)).
Qed.
Lemma alter_same {A} (f : A → A) (i : nat) (l : list A) x : l !! i = Some x → alter f i l = <[i := f x]> l.
Proof.
  intros H. apply list_eq. intros j. destruct (decide (j = i)) as [->|].
  - rewrite list_lookup_alter, H, list_lookup_insert; [done|by eapply lookup_lt_Some].
  - by rewrite list_lookup_alter_ne, list_lookup_insert_ne.
Qed.
Lemma oone_on rx x : oone (λ _, 1) (ON rx x) = match x with OFull (CNewMsg _) => 1 | _ => 0 end.
Proof. done. Qed.
Lemma exec_dec2 s t u rest s1 new : reach s → thr s !! t = Some (u :: rest) → exec u s = (s1, new) →
  Σ big new + Ac s1 < big u + Ac s ∨ Σ ex new + 20 * Mc s1 + HW s1 ≤ ex u + 20 * Mc s + HW s.
Proof.
  intros Hr Ht E.
  pose proof (shut_M s) as HS.
  assert (∀ b, Ac (fst (pop_broadcast b s)) < Ac s ∨
    (Σ qlen (bqueues (fst (pop_broadcast b s))) + (if snd (pop_broadcast b s) then 1 else 0) = Σ qlen (bqueues s) ∧ ones (fst (pop_broadcast b s)) = ones s)) as HB by (intros; apply pop_bc_M).
  assert (∀ r, g_rf r u = 1 → ∃ h, hols s !! r = Some h ∧ h_st h = HRecvBusy) as Hbz by (intros r; by apply (busyR_at s t u rest r)).
  assert (∀ os r x, g_rf r u = 1 → Σ (hw os) (alter (λ h, HO (h_bq h) x (h_run h) (h_wk h)) r (hols s)) + 12 = Σ (hw os) (hols s) + hws os x) as Hst.
  { intros os r x Hg. destruct (Hbz r Hg) as (h & Hh & Hb). rewrite (alter_same _ _ _ _ Hh).
    pose proof (sum_insert (hw os) _ _ _ (HO (h_bq h) x (h_run h) (h_wk h)) Hh) as H. unfold hw in H at 2 4. cbn in H. rewrite Hb in H. cbn in H. lia. }
  pose proof (pop_uni_M s) as HU.
  exec_cases u E.
  all: unfold deliver, send_out, rx_drop, payload_drop, tx_drop, try_fulfill_receiver, panic_recv, panic_send, HW, Mc in *.
  all: repeat (progress (prj; autorewrite with fr_cellsA fr_ones fr_hols fr_uq fr_bqueues fr_cells1)); rewrite ?sum_list_with_app.
  all: repeat match goal with |- context [Σ _ (match ?x with _ => _ end)] => destruct x end.
  all: cbn [sum_list_with big ex].
  all: try (right; lia).
  all: try (left; lia).
  all: try (left; rewrite (sum_notify big) by done; lia).
  all: try (left; cbn [bcell]; lia).
  all: try match goal with H : cellsA ?x !! ?c = Some ?z |- context [<[?c := ?y]> (cellsA ?x)] =>
    pose proof (sum_insert (bcell (λ _, 1)) (cellsA x) c z y H) as HI; cbn [bcell] in HI; try (destruct wc_alive; right; lia); try (right; lia) end.
  all: try match goal with H : cells1 ?x !! ?c = Some ?z |- context [<[?c := ?y]> (cells1 ?x)] =>
    pose proof (sum_insert (ccell (λ _, 1)) (cells1 x) c z y H) as HI; cbn [ccell] in HI; try (destruct wc_alive; right; lia); try (right; lia) end.
  all: try match goal with H : bqueues ?x !! ?c = Some ?z |- context [<[?c := ?y]> (bqueues ?x)] =>
    pose proof (sum_insert qlen (bqueues x) c z y H) as HI; unfold qlen in HI at 2 4; cbn [bq_heap length] in HI; right; lia end.
  all: try (cbn; right; lia).
  all: try match goal with |- context [alter (λ h, HO _ ?x _ _) ?r _] => match goal with |- context [Σ (hw ?os) (alter _ _ _)] =>
    pose proof (Hst os r x ltac:(cbn; by rewrite Nat.eqb_refl)) as HX end end.
  all: try match goal with |- context [pop_broadcast ?b _] => destruct (HB b) as [HB1|[HB1 HB2]]; [left; lia|rewrite ?HB2 in *; right] end.
  all: try match goal with H : snd _ = _ |- _ => rewrite H in * end.
  all: try match goal with H : ones ?x !! ?o = Some ?z |- context [<[?o := ?y]> (ones ?x)] =>
    pose proof (sum_insert (oone (λ _, 1)) (ones x) o z y H) as HI; pose proof (HW_same (ones x) o z y (hols x) H ltac:(cbn; tauto)) as HJ; rewrite !oone_on in HI end.
  all: cbn [fst snd] in HU.
  all: try (cbn [hws stopping] in *; right; lia).
  all: try match goal with b : bmsg |- _ => destruct b end.
  all: try (cbn [hws stopping] in *; lia).
  all: try (pose proof (HW_mono (ones s) _ (hols s) (emp_snoc (ones s) (ON true (OEmpty None)))) as HJ; rewrite oone_on; right; lia).
  { right. rewrite one_send_quiet by done. pose proof (one_send_hw o CShutdown s Hr) as H. unfold HW in H. autorewrite with fr_hols in H.
    destruct (snd (one_send o CShutdown s)); lia. }
  - cbn [hws] in HX. rewrite emp_insert, Nat.eqb_refl in HX by (by eapply lookup_lt_Some). right. lia.
  - right. pose proof (fulfill_hw (wrx s) m s Hr) as H. pose proof (fulfill_ones (λ _, 1) (wrx s) m s) as H2. unfold HW in H. autorewrite with fr_hols in H. rewrite E2 in *. lia.
  - right. pose proof (fulfill_hw (wrx s) m s Hr) as H. pose proof (fulfill_ones (λ _, 1) (wrx s) m s) as H2. unfold HW in H. autorewrite with fr_hols in H. rewrite E2 in *.
    rewrite len_sum, (sum_push um_prio), <-len_sum. lia.
Qed.
