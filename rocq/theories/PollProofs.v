(** A receive future that was notified completes at its next poll. *)
From stdpp Require Import base numbers list list_numbers.
From Coq Require Import Lia.
From Verif Require Import Prio Heap State Model HeapProofs Frame Lib InvBusy InvCount Effects InvMsg InvOne InvOne2 InvBc Mono Events Spec Bridge FinishSpec FinishProofs
  InvHeap InvDisc InvWait FinalC FinalF FinalG FinalI ClaimsB System SystemInv SystemStop SystemNext PollSpec.

(** ** One-shot channels that were used *)
Definition full (s : state) (o : nat) (c : ctrl) : Prop := ∃ rx, ones s !! o = Some (ON rx (OFull c)).
Lemma full_eq s s1 o c : ones s1 = ones s → full s o c → full s1 o c.
Proof. unfold full. by intros ->. Qed.
Lemma one_send_full k d s o c : full s o c → full (fst (one_send k d s)) o c.
Proof.
  intros [rx H]. unfold one_send. destruct (ones s !! k) as [[[] []]|] eqn:E; try (by exists rx). cbn [fst]. exists rx.
  repeat (progress (prj; autorewrite with fr_ones)). rewrite list_lookup_insert_ne; [done|]. intros ->. by rewrite E in H.
Qed.
Lemma one_sends_full l d s o c : full s o c → full (fold_left (λ s o, fst (one_send o d s)) l s) o c.
Proof. revert s. induction l as [|k l IH]; intros s H; [done|]. cbn. apply IH. by apply one_send_full. Qed.
Lemma fulfill_full ws m s o c : full s o c → full (fst (fulfill ws m s)) o c.
Proof.
  revert s. induction ws as [|k ws IH]; intros s H; cbn; [done|]. apply (one_send_full k (CNewMsg m)) in H.
  destruct (one_send k (CNewMsg m) s) as [s' []]; cbn [fst] in *; [by eapply full_eq; [|done]|by apply IH].
Qed.
Lemma send_full m s o c : full s o c → full (send_broadcast m s) o c.
Proof.
  intros H. unfold send_broadcast. cbv zeta. match goal with |- full (emit _ (set_tail _ ?x)) _ _ => eapply (full_eq x); [done|] end. apply one_sends_full.
  eapply full_eq; [|done]. by repeat (progress (prj; autorewrite with fr_ones)).
Qed.
Lemma pop_full b s o c : full s o c → full (fst (pop_broadcast b s)) o c.
Proof.
  intros H. destruct (pop_broadcast_cases b s) as [[_ ->]|(m & h & _ & _ & [[_ ->]|(_ & s3 & x & E & _ & ->)])]; [done| |].
  - eapply full_eq; [|done]. unfold pop_put. by repeat (progress (prj; autorewrite with fr_ones)).
  - assert (full s3 o c). { eapply full_eq; [|done]. pose proof (take_waitingA_ones (pop_put b h s)) as E2. rewrite E in E2. cbn in E2. rewrite E2. unfold pop_put. by repeat (progress (prj; autorewrite with fr_ones)). }
    destruct x; [by apply send_full|done].
Qed.
Lemma full_ins s k x o c : full s o c → o ≠ k → full (set_ones (<[k := x]> (ones s)) s) o c.
Proof. intros [rx H] Hk. exists rx. prj. by rewrite list_lookup_insert_ne. Qed.
Lemma exec_full u s s1 new o c : exec u s = (s1, new) → g_one o u = 0 → g_pc o u = 0 → full s o c → full s1 o c.
Proof.
  intros E Hu1 Hu2 HS.
  exec_cases u E; unfold panic_recv; try (eapply full_eq; [|exact HS]; by repeat (progress (prj; autorewrite with fr_ones))).
  all: try (match goal with |- context [fst (try_fulfill_receiver ?m ?z)] =>
      eapply (full_eq (fst (try_fulfill_receiver m z))); [|by apply fulfill_full] end; by repeat (progress (prj; autorewrite with fr_ones))).
  all: try (match goal with |- context [fst (pop_broadcast ?b ?z)] =>
      eapply (full_eq (fst (pop_broadcast b z))); [|by apply pop_full] end; by repeat (progress (prj; autorewrite with fr_ones))).
  all: try (match goal with |- context [<[?k := ?x]> (ones ?z)] =>
      eapply (full_eq (set_ones (<[k := x]> (ones z)) z)); [by repeat (progress (prj; autorewrite with fr_ones))|];
      apply full_ins; [done|]; intros ->; cbn in Hu1, Hu2; unfold isn in *; rewrite Nat.eqb_refl in *; done end).
  all: try (by apply send_full).
  all: try (by apply one_send_full).
  all: destruct HS as (rx & Ho); exists rx; by apply lookup_app_l_Some.
Qed.

(** ** A notice of a broadcast comes with the broadcast *)
Definition nb (s : state) (o : nat) : bool := match ones s !! o with Some (ON _ (OFull CNewBroadcast)) => true | _ => false end.
Lemma nb_full s o : nb s o = true ↔ full s o CNewBroadcast.
Proof. unfold nb, full. split; [|by intros [rx ->]]. destruct (ones s !! o) as [[rx [|[]| |]]|]; try done. by eexists. Qed.
Lemma nb_eq s s1 o : ones s1 = ones s → nb s1 o = nb s o.
Proof. unfold nb. by intros ->. Qed.
Lemma nb_ins s k x o : (match x with ON _ (OFull CNewBroadcast) => False | _ => True end) → nb (set_ones (<[k := x]> (ones s)) s) o = true → nb s o = true.
Proof.
  unfold nb. prj. intros Hx H. destruct (decide (k = o)) as [->|Hn]; [|by rewrite list_lookup_insert_ne in H].
  destruct (decide (o < length (ones s))) as [Hl|Hl]; [rewrite list_lookup_insert in H by done; destruct x as [? [|[]| |]]; done|].
  rewrite list_insert_ge in H by lia. done.
Qed.
Lemma one_send_nb k d s o : d ≠ CNewBroadcast → nb (fst (one_send k d s)) o = true → nb s o = true.
Proof.
  intros Hd. unfold one_send. destruct (ones s !! k) as [[[] []]|] eqn:E; try done. cbn [fst]. intros H.
  rewrite (nb_eq (set_ones (<[k := ON true (OFull d)]> (ones s)) s)) in H by (by repeat (progress (prj; autorewrite with fr_ones))). eapply nb_ins; [|exact H]. by destruct d.
Qed.
Lemma fulfill_nb ws m s o : nb (fst (fulfill ws m s)) o = true → nb s o = true.
Proof.
  revert s. induction ws as [|k ws IH]; intros s; cbn; [done|]. pose proof (one_send_nb k (CNewMsg m) s o ltac:(done)) as H.
  destruct (one_send k (CNewMsg m) s) as [s' []]; cbn [fst] in *; [done|]. intros H2. by apply H, IH.
Qed.
Lemma puts_in m l s b : b ∈ l → b < length (bqueues s) → m ∈ bq_get (fold_left (λ s b, bq_put b (heap_push bm_prio m (bq_get s b)) s) l s) b.
Proof.
  revert s. induction l as [|k l IH]; intros s Hb Hl; [by apply elem_of_nil in Hb|]. cbn [fold_left].
  destruct (decide (b = k)) as [->|Hn].
  - apply puts_keep. rewrite bq_get_put, decide_True by done. rewrite heap_push_perm. by left.
  - apply IH; [by apply elem_of_cons in Hb as [?|?]|]. unfold bq_put. destruct (bqueues s !! k) eqn:E; prj; [|done]. by rewrite insert_length.
Qed.
Lemma live_lt s b : bq_live s b = true → b < length (bqueues s).
Proof. unfold bq_live. destruct (bqueues s !! b) eqn:E; [|done]. intros _. by eapply lookup_lt_Some. Qed.
Lemma send_in m s b : b ∈ live s → m ∈ bq_get (send_broadcast m s) b.
Proof.
  intros H. unfold send_broadcast. cbv zeta. rewrite (get_eq (fold_left (λ s b, bq_put b (heap_push bm_prio m (bq_get s b)) s) (List.filter (bq_live s) (bqs s)) s)).
  - apply puts_in; [done|]. apply elem_live in H as [_ H]. by apply live_lt.
  - by repeat (progress (prj; autorewrite with fr_bqueues)).
Qed.
Lemma pop_nb c s o b : b ∈ live s → nb (fst (pop_broadcast c s)) o = true → nb s o = true ∨ ∃ m, m ∈ bq_get (fst (pop_broadcast c s)) b.
Proof.
  intros Hb H. destruct (pop_broadcast_cases c s) as [[_ E]|(m & h & _ & _ & [[_ E]|(_ & s3 & x & E3 & (Q1 & Q2 & _) & E)])]; rewrite E in *; [by left|left|].
  - rewrite (nb_eq s) in H; [done|]. unfold pop_put. by repeat (progress (prj; autorewrite with fr_ones)).
  - destruct x as [z|].
    + right. exists z. apply send_in. apply elem_live in Hb as [Hb1 Hb2]. apply elem_live. rewrite Q2, pop_put_bqs. split; [done|].
      rewrite <-(put_live c h s b) in Hb2. unfold bq_live in *. by rewrite Q1.
    + left. rewrite (nb_eq s) in H; [done|]. pose proof (take_waitingA_ones (pop_put c h s)) as E2. rewrite E3 in E2. cbn in E2. rewrite E2. unfold pop_put. by repeat (progress (prj; autorewrite with fr_ones)).
Qed.
Lemma exec_nb u s s1 new o b : exec u s = (s1, new) → b ∈ live s → nb s1 o = true → nb s o = true ∨ ∃ m, m ∈ bq_get s1 b.
Proof.
  intros E Hb.
  exec_cases u E; unfold panic_recv; intros HS; try (by left); try (left; rewrite (nb_eq s) in HS; [exact HS|]; by repeat (progress (prj; autorewrite with fr_ones))).
  all: try (match type of HS with context [fst (try_fulfill_receiver ?m ?z)] =>
      left; rewrite (nb_eq (fst (try_fulfill_receiver m z))) in HS; [by apply fulfill_nb in HS|] end; by repeat (progress (prj; autorewrite with fr_ones))).
  all: try (match type of HS with context [fst (pop_broadcast ?c ?z)] =>
      rewrite (nb_eq (fst (pop_broadcast c z))) in HS; [|by repeat (progress (prj; autorewrite with fr_ones))];
      destruct (pop_nb c z o b Hb HS) as [?|[m Hm]]; [by left|]; right; exists m; erewrite get_eq; [exact Hm|]; unfold deliver; by repeat (progress (prj; autorewrite with fr_bqueues)) end).
  all: try (match type of HS with context [<[?k := ?x]> (ones ?z)] =>
      left; rewrite (nb_eq (set_ones (<[k := x]> (ones z)) z)) in HS; [eapply nb_ins; [|exact HS]; try done|by repeat (progress (prj; autorewrite with fr_ones))] end).
  all: try (left; unfold nb in *; prjin HS; destruct (ones s !! o) eqn:Eo; [by rewrite (lookup_app_l_Some _ _ _ _ Eo) in HS|];
     apply lookup_ge_None in Eo; rewrite lookup_app_r in HS by done; by destruct (o - length (ones s))).
  all: try (left; by apply one_send_nb in HS).
  all: try (right; eexists; apply send_in; exact Hb).
  all: first [by apply pop_nb|left; by apply fulfill_nb in HS].
Qed.
Lemma len_oviews s s1 : oviews s1 = oviews s → length (ones s1) = length (ones s).
Proof. intros H. apply (f_equal length) in H. unfold oviews in H. by rewrite !fmap_length in H. Qed.
Lemma nb_ge s o : length (ones s) ≤ o → nb s o = false.
Proof. intros H. unfold nb. by rewrite lookup_ge_None_2. Qed.
Lemma exec_nb_new u s s1 new o : exec u s = (s1, new) → length (ones s) ≤ o → nb s1 o = false.
Proof.
  intros E Ho.
  exec_cases u E; unfold panic_recv; try (rewrite (nb_eq s) by (by repeat (progress (prj; autorewrite with fr_ones))); by apply nb_ge); try by apply nb_ge.
  all: try (apply nb_ge; match goal with |- length (ones ?z) ≤ _ => assert (length (ones z) = length (ones s)) as ->; [|done] end;
    repeat (progress (prj; autorewrite with fr_ones)); rewrite ?insert_length;
    rewrite ?(len_oviews _ _ (try_fulfill_oviews _ _)), ?(len_oviews _ _ (pop_broadcast_oviews _ _)), ?(len_oviews _ _ (send_broadcast_oviews _ _)), ?(len_oviews _ _ (one_send_oviews _ _ _));
    by repeat (progress (prj; autorewrite with fr_ones))).
  all: unfold nb; prj; rewrite lookup_app_r by done; destruct (o - length (ones s)) as [|[]]; done.
Qed.
(** The receive future [r] owns the one-shot channel [k]. *)
Definition gp (r k : nat) (u : micro) : nat := match u with UPollOne a o => isn r a * isn k o | _ => 0 end.
Definition slot (s : state) (r k : nat) : nat := at_ (h_wait k) (hols s) r + msum (gp r k) s.
Lemma slot_api o s r k : reach s → slot (api o s) r k ≤ slot s r k.
Proof.
  intros Hr. unfold slot. do_api o ltac:(autorewrite with fr_hols).
  all: unfold isn in *; fin.
Qed.
Lemma slot_exec u s t rest s1 new r k : reach s → thr s !! t = Some (u :: rest) → exec u s = (s1, new) → thr s1 = thr s → k < length (ones s) →
  slot (set_thr (<[t := new ++ rest]> (thr s1)) s1) r k ≤ slot s r k.
Proof.
  intros Hr Ht E Hthr Hk. unfold slot.
  pose proof (msum_step (gp r k) s t u rest new s1 Ht Hthr) as HM.
  revert HM. generalize (msum (gp r k) (set_thr (<[t:=new ++ rest]> (thr s1)) s1)). intros n HM.
  pose proof (msum_head (gp r k) s t u rest Ht) as HH. pose proof (busyR_at s t u rest) as Hb.
  prj. do_exec u E HM ltac:(autorewrite with fr_hols); unfold isn in *; fin.
  1: unfold isn; rewrite Nat.eqb_refl; lia.
  unfold isn. case_eqb; [done|]. lia.
Qed.
Lemma slot_exec_ge u s t rest s1 new r k : reach s → thr s !! t = Some (u :: rest) → exec u s = (s1, new) → thr s1 = thr s →
  slot s r k ≤ slot (set_thr (<[t := new ++ rest]> (thr s1)) s1) r k + gp r k u.
Proof.
  intros Hr Ht E Hthr. unfold slot.
  pose proof (msum_step (gp r k) s t u rest new s1 Ht Hthr) as HM.
  revert HM. generalize (msum (gp r k) (set_thr (<[t:=new ++ rest]> (thr s1)) s1)). intros n HM.
  pose proof (busyR_at s t u rest) as Hb. assert (∀ r h, g_rf r u = 1 → hols s !! r = Some h → h_wait k h = 0) as Hw.
  { intros q x Hq Hx. destruct (Hb q Hr Ht Hq) as (y & Hy & Hs). rewrite Hx in Hy. injection Hy as <-. unfold h_wait. by rewrite Hs. }
  prj. do_exec u E HM ltac:(autorewrite with fr_hols); fin.
  all: try (rewrite at_ge by lia; lia).
  all: try (match goal with H : hols _ !! ?q = Some ?x |- _ => pose proof (Hw q x ltac:(by rewrite Nat.eqb_refl) H) as Hw1 end; rewrite ?Hw1; unfold isn in *; fin).
Qed.
Definition gn (r : nat) (u : micro) : nat := match u with UNextBc a => isn r a | _ => 0 end.
Lemma msum_api g o s : msum g s ≤ msum g (api o s).
Proof. unfold msum. destruct (api_thr o s) as [k ->]. rewrite sum_list_with_app. lia. Qed.
Lemma api_recv o s r h : hols s !! r = Some h → ¬ receiving h → ∃ h', hols (api o s) !! r = Some h' ∧ ¬ receiving h'.
Proof.
  intros Hh Hn. assert (touched o = Some r ∨ touched o ≠ Some r) as [Ht|Ht] by (destruct (touched o) as [q|]; [destruct (decide (q = r)); subst; auto; right; congruence|by right]).
  - unfold receiving in *. assert (r < length (hols s)) as Hl by by eapply lookup_lt_Some. destruct h as [b x k w]. cbn [h_st] in *.
    destruct o; try done; injection Ht as ->; cbn [api]; rewrite Hh; cbn [h_st]; destruct x as [| | |o|a|a|a|]; try done; cbn [hol_drop h_st] in *; try destruct a as [|[]|];
      repeat (progress (prj; autorewrite with fr_hols)); rewrite ?list_lookup_insert by done; try (rewrite ?Hh; eexists; split; [done|]; done).
  - destruct (api_keep s o r h Hh Ht) as (h' & Hh' & [[E _]|(E & _)]); exists h'; (split; [done|]); unfold receiving in *; [by rewrite E|by rewrite E in Hn].
Qed.
Lemma slot_api_ge o s r k : slot s r k ≤ slot (api o s) r k ∨ ∃ h', hols (api o s) !! r = Some h' ∧ ¬ receiving h'.
Proof.
  destruct (hols s !! r) as [h|] eqn:Hh.
  2: { left. unfold slot. rewrite (at_ge (h_wait k) (hols s)) by by apply lookup_ge_None. pose proof (msum_api (gp r k) o s). lia. }
  assert (touched o = Some r ∨ touched o ≠ Some r) as [Ht|Ht] by (destruct (touched o) as [q|]; [destruct (decide (q = r)); subst; auto; right; congruence|by right]).
  - assert (receiving h ∨ ¬ receiving h) as [HR|HR] by (unfold receiving; destruct (h_st h); auto); [|right; by eapply api_recv].
    unfold receiving in *. assert (r < length (hols s)) as Hl by by eapply lookup_lt_Some. destruct h as [b x q w]. cbn [h_st] in *.
    unfold slot. destruct o; try done; injection Ht as ->; cbn [api]; rewrite Hh; cbn [h_st]; destruct x as [| | |o|a|a|a|]; try done; cbn [hol_drop h_st] in *; try (left; lia).
    all: try (right; repeat (progress (prj; autorewrite with fr_hols)); rewrite list_lookup_insert by done; eexists; split; [done|]; exact (λ x, x)).
    all: left; unfold msum; repeat (progress (prj; autorewrite with fr_hols fr_thr)); rewrite (at_some _ _ _ _ Hh), (at_some _ _ _ _ (list_lookup_insert _ _ _ Hl)); rewrite sum_list_with_app; cbn; unfold isn;
      rewrite ?Nat.eqb_refl; repeat case_match; lia.
  - destruct (api_keep s o r h Hh Ht) as (h' & Hh' & HK). left. unfold slot. rewrite (at_some _ _ _ _ Hh), (at_some _ _ _ _ Hh'). pose proof (msum_api (gp r k) o s).
    unfold h_wait at 1 2. destruct HK as [[-> _]|(-> & _)]; lia.
Qed.
Lemma owned_slot s r k : reach s → 0 < slot s r k → ∃ h, hols s !! r = Some h ∧ (h_st h = HRecvWait k ∨ h_st h = HRecvBusy) ∧ receiving h.
Proof.
  intros Hr H. unfold slot in H. assert (0 < at_ (h_wait k) (hols s) r ∨ 0 < msum (gp r k) s) as [H1|H1] by lia.
  - apply at_pos in H1 as (h & Hh & Hw). exists h. split; [done|]. unfold h_wait in Hw. unfold receiving. destruct (h_st h) eqn:E; try lia. unfold isn in Hw. destruct (Nat.eqb_spec o k); [subst; auto|lia].
  - pose proof (msum_le (gp r k) (g_rf r) s ltac:(intros []; cbn; unfold isn; repeat case_match; lia)) as H2. rewrite (reach_busyR s Hr r) in H2.
    destruct (at_pos isrbusy (hols s) r) as (h & Hh & Hw); [lia|]. exists h. split; [done|]. unfold isrbusy in Hw. unfold receiving. destruct (h_st h); try lia; auto.
Qed.
Lemma slot_one s r k : reach s → 0 < slot s r k → 1 ≤ Σ (h_wait k) (hols s) + msum (g_po k) s.
Proof.
  intros Hr H. unfold slot in H. pose proof (at_le_sum (h_wait k) (hols s) r).
  pose proof (msum_le (gp r k) (g_po k) s ltac:(intros []; cbn; unfold isn; repeat case_match; lia)). lia.
Qed.

(** ** Invariants *)
Definition W (s : state) : Prop := ∀ r h k, hols s !! r = Some h → 0 < slot s r k → nb s k = true → ∃ x, x ∈ bq_get s (h_bq h).
Definition D (B : bool) (c : ctrl) (s : state) (r : nat) : Prop := ∃ h, hols s !! r = Some h ∧
  (¬ receiving h ∨ (∃ k, 0 < slot s r k ∧ full s k c ∧ (c = CNewBroadcast → B = true ∧ ∃ x, x ∈ bq_get s (h_bq h))) ∨
   (0 < msum (gn r) s ∧ c = CNewBroadcast ∧ B = true ∧ ∃ x, x ∈ bq_get s (h_bq h))).
Lemma recv_gone h : receiving h → h_st h ≠ HGone.
Proof. unfold receiving. by destruct (h_st h). Qed.
Lemma recv_live s r h : reach s → hols s !! r = Some h → receiving h → owned_queue s (h_bq h) ∧ h_bq h ∈ live s.
Proof.
  intros Hr Hh HR. assert (owned_queue s (h_bq h)) as Ho by (exists r, h; split_and!; [done|by apply recv_gone|done]). split; [done|].
  apply elem_live. split; [by apply owned_bqs|by apply owned_live].
Qed.
Lemma hands_self s s1 r h x : one_receiver s → hols s !! r = Some h → receiving h → hands x (h_bq h) s s1 → ∃ h', hols s1 !! r = Some h' ∧ ¬ receiving h'.
Proof.
  intros HO Hh HR (r' & y & y' & Hy & Hs & Hb & Hy' & Hs'). assert (r' = r) as ->. { eapply HO; [exact Hy|exact Hh| |done|done]. unfold receiving. by rewrite Hs. }
  exists y'. split; [done|]. unfold receiving. rewrite Hs'. exact (λ x, x).
Qed.
Lemma W_exec s t u rest s1 new : reach s → one_receiver s → W s → thr s !! t = Some (u :: rest) → exec u s = (s1, new) → thr s1 = thr s →
  reach (set_thr (<[t := new ++ rest]> (thr s1)) s1) → W (set_thr (<[t := new ++ rest]> (thr s1)) s1).
Proof.
  intros Hr HO HW Ht E Hthr Hz r h1 k Hh1 Hs1 Hn. pose proof Hh1 as Hz1. prjin Hh1. change (nb s1 k = true) in Hn. change (∃ x, x ∈ bq_get s1 (h_bq h1)).
  assert (k < length (ones s)) as Hk. { destruct (decide (k < length (ones s))); [done|]. by rewrite (exec_nb_new u s s1 new k E) in Hn by lia. }
  pose proof (slot_exec u s t rest s1 new r k Hr Ht E Hthr Hk) as HL. destruct (owned_slot s r k Hr ltac:(lia)) as (h & Hh & _ & HR).
  destruct (exec_same2 u s s1 new r h E Hh) as (h' & Hh' & Eb & _). rewrite Hh1 in Hh'. injection Hh' as <-. destruct (recv_live s r h Hr Hh HR) as [Ho Hl]. rewrite Eb.
  destruct (exec_nb u s s1 new k (h_bq h) E Hl Hn) as [Hn0|?]; [|done]. destruct (HW r h k Hh ltac:(lia) Hn0) as [x Hx].
  destruct (exec_keep_b x (h_bq h) s t u rest s1 new Hr Ht E Ho Hx) as [?|HH]; [by exists x|]. exfalso.
  destruct (hands_self s s1 r h x HO Hh HR HH) as (h' & Hh' & Hn'). rewrite Hh1 in Hh'. injection Hh' as <-.
  destruct (owned_slot _ r k Hz Hs1) as (h' & Hh' & _ & HR'). rewrite Hz1 in Hh'. by injection Hh' as <-.
Qed.
Lemma api_ones o s : ones (api o s) = ones s.
Proof. destruct o; cbn [api]; repeat (dgoal; try done); cbv zeta; unfold add_addr; repeat dgoal; by repeat (progress (prj; autorewrite with fr_ones)). Qed.
Lemma W_api o s : reach s → W s → W (api o s).
Proof.
  intros Hr HW r h1 k Hh1 Hs1 Hn. rewrite (nb_eq s _ k (api_ones o s)) in Hn. pose proof (slot_api o s r k Hr) as HL. destruct (owned_slot s r k Hr ltac:(lia)) as (h & Hh & _ & HR).
  destruct (api_same2 s o r h Hh) as (h' & Hh' & Eb & _). rewrite Hh1 in Hh'. injection Hh' as <-. rewrite Eb, api_keep_b. apply (HW r h k); [done|lia|done].
Qed.
Lemma W_collect s : reach s → W s → W (collect s).
Proof.
  intros Hr HW r h k Hh Hs. pose proof (reach_collect s Hr) as Hr2. destruct (owned_slot (collect s) r k Hr2 Hs) as (h' & Hh' & _ & HR). rewrite Hh in Hh'. injection Hh' as <-.
  rewrite collect_hols in Hh. rewrite (FinalG.owned_collect s (owned_hol s r h Hh (recv_gone h HR))) in *. exact (HW r h k Hh Hs).
Qed.
Lemma W_run c l : one_at_a_time c l → W (run (init c) l).
Proof.
  induction l as [|o l IH] using rev_ind; intros H; [intros [|] ? k Hh Hs; [|done]; injection Hh as <-; cbn in Hs; lia|].
  rewrite run_snoc. assert (one_at_a_time c l) as HA. { intros l1 l2 E. apply (H l1 (l2 ++ [o])). by rewrite E, app_assoc. }
  assert (one_receiver (run (init c) l)) as HO by by apply (H l [o]). specialize (IH HA). pose proof (reach_run (init c) l (reach_init c)) as Hr. revert Hr HO IH. generalize (run (init c) l). clear. intros s Hr HO HW.
  unfold step. destruct o as [t| | | | | | | | | | | | | | | | | | | | | | | | | | |]; try (apply W_collect; [by apply reach_api|by apply W_api]).
  apply W_collect; [by apply reach_step|]. pose proof (reach_step s t Hr) as Hz. revert Hz. unfold do_step. destruct (thr s !! t) as [[|u rest]|] eqn:Ht; try done.
  destruct (exec u s) as [s1 new] eqn:E. pose proof (exec_thr u s) as Et. rewrite E in Et. cbn in Et. intros Hz. exact (W_exec s t u rest s1 new Hr HO HW Ht E Et Hz).
Qed.
Lemma not_recv_exec s t u rest s1 new r h : reach s → thr s !! t = Some (u :: rest) → exec u s = (s1, new) → EvPanic ∉ log s1 → hols s !! r = Some h → ¬ receiving h →
  ∃ h', hols s1 !! r = Some h' ∧ ¬ receiving h'.
Proof.
  intros Hr Ht E Hp Hh Hn. destruct (exec_keep s t u rest s1 new r h Hr Ht E Hp Hh) as (h' & Hh' & [[E1 _]|(E1 & _)]); exists h'; (split; [done|]); unfold receiving in *; [by rewrite E1|by rewrite E1 in Hn].
Qed.
Lemma other_one s t u rest r k : reach s → thr s !! t = Some (u :: rest) → 0 < slot s r k → gp r k u = 0 → g_one k u = 0 ∧ g_pc k u = 0.
Proof.
  intros Hr Ht Hs Hg. destruct (reach_own s Hr k) as [I1 I2]. assert (at_ o_live (ones s) k ≤ 1) as Hb by (apply at_bound; intros []; unfold o_live; repeat case_match; lia).
  unfold slot in Hs. pose proof (at_le_sum (h_wait k) (hols s) r) as H1.
  rewrite (msum_split (g_one k) (gp r k) (λ u, g_one k u - gp r k u)) in I1 by (intros []; cbn; unfold isn; repeat case_match; lia).
  rewrite (msum_split (g_pc k) (gp r k) (λ u, g_pc k u - gp r k u)) in I2 by (intros []; cbn; unfold isn; repeat case_match; lia).
  pose proof (msum_head (λ u, g_one k u - gp r k u) s t u rest Ht) as H2. pose proof (msum_head (λ u, g_pc k u - gp r k u) s t u rest Ht) as H3. cbn beta in *. rewrite Hg in *. lia.
Qed.
Lemma D_exec B c s t u rest s1 new r : reach s → (B = true → one_receiver s) → D B c s r → thr s !! t = Some (u :: rest) → exec u s = (s1, new) → thr s1 = thr s → EvPanic ∉ log s1 →
  D B c (set_thr (<[t := new ++ rest]> (thr s1)) s1) r ∧ ∀ o k, u = UPollOne r o → log s1 = k ++ log s → EvRecvPending r ∉ k.
Proof.
  intros Hr HO (h & Hh & HD) Ht E Hthr Hp. assert (r < length (hols s)) as Hl by by eapply lookup_lt_Some.
  assert (receiving h ∨ ¬ receiving h) as [HR|HR] by (unfold receiving; destruct (h_st h); auto).
  2: { split.
    - destruct (not_recv_exec s t u rest s1 new r h Hr Ht E Hp Hh HR) as (h' & Hh' & Hn). exists h'. split; [done|by left].
    - intros o k ->. destruct (busyR_at s t _ rest r Hr Ht) as (h' & Hh' & Hs); [cbn; unfold isn; by rewrite Nat.eqb_refl|]. rewrite Hh in Hh'. injection Hh' as <-. unfold receiving in HR. by rewrite Hs in HR. }
  destruct (recv_live s r h Hr Hh HR) as [Hq Hlv]. destruct (exec_same2 u s s1 new r h E Hh) as (h' & Hh' & Eb & _).
  assert (∀ x, B = true → x ∈ bq_get s (h_bq h) → x ∈ bq_get s1 (h_bq h) ∨ ¬ receiving h') as HK.
  { intros x HB Hx. destruct (exec_keep_b x (h_bq h) s t u rest s1 new Hr Ht E Hq Hx) as [?|HH]; [by left|right]. destruct (hands_self s s1 r h x (HO HB) Hh HR HH) as (h2 & Hh2 & ?). rewrite Hh' in Hh2. by injection Hh2 as <-. }
  destruct HD as [?|[(k & Hs & Hf & Hc)|(Hs & Ec & HB & x & Hx)]]; [done| |].
  - destruct (decide (gp r k u = 0)) as [Hg|Hg].
    + destruct (other_one s t u rest r k Hr Ht Hs Hg) as [G1 G2]. pose proof (slot_exec_ge u s t rest s1 new r k Hr Ht E Hthr) as HL. split.
      * exists h'. split; [done|]. assert (full s1 k c) as Hf1 by by eapply exec_full.
        destruct c as [m| |]; try (right; left; exists k; split; [lia|]; split; [exact Hf1|]; done).
        destruct (Hc eq_refl) as (HB & x & Hx). destruct (HK x HB Hx) as [Hx1|Hn]; [|by left]. right; left. exists k. split; [lia|]. split; [exact Hf1|]. intros _. split; [done|]. exists x. by rewrite Eb.
      * intros o k2 ->. destruct (decide (o = k)) as [->|Hok]; [cbn in Hg; unfold isn in Hg; by rewrite !Nat.eqb_refl in Hg|]. exfalso.
        pose proof (reach_busyR s Hr r) as HB. unfold slot in Hs. assert (at_ (h_wait k) (hols s) r = 0) as Hw.
        { rewrite (at_some _ _ _ _ Hh). destruct (busyR_at s t _ rest r Hr Ht) as (h2 & Hh2 & Hs2); [cbn; unfold isn; by rewrite Nat.eqb_refl|]. rewrite Hh in Hh2. injection Hh2 as <-. unfold h_wait. by rewrite Hs2. }
        rewrite (msum_split (g_rf r) (gp r k) (λ u, g_rf r u - gp r k u)) in HB by (intros []; cbn; unfold isn; repeat case_match; lia).
        pose proof (msum_head (λ u, g_rf r u - gp r k u) s t _ rest Ht) as H2. cbn beta in *. rewrite Hg in H2. cbn in H2. unfold isn in H2. rewrite Nat.eqb_refl in H2.
        rewrite (at_some _ _ _ _ Hh) in HB. unfold isrbusy in HB. destruct (h_st h); lia.
    + assert (u = UPollOne r k) as ->. { destruct u; try done. cbn in Hg. unfold isn in Hg. destruct (Nat.eqb_spec r0 r); [|lia]. destruct (Nat.eqb_spec o k); [|lia]. by subst. }
      destruct Hf as [rx Ho]. cbn [exec] in E. rewrite Hh in E. unfold exec_poll_one in E. rewrite Ho in E. destruct c as [m| |]; injection E as <- <-.
      1,3: split; [eexists; split; [unfold deliver; repeat (progress (prj; autorewrite with fr_hols)); rewrite list_lookup_alter, Hh; reflexivity|]; left; exact (λ x, x)|];
        intros ? k2 _; unfold deliver; repeat (progress (prj; autorewrite with fr_log)); intros HE; match type of HE with ?e :: ?l = _ => change (e :: l) with ([e] ++ l) in HE end; apply app_inv_tail in HE as <-; by intros ?%elem_of_list_singleton.
      split.
      * destruct (Hc eq_refl) as (HB & x & Hx). exists h. split; [done|]. right; right. split; [|split_and!; [done|done|by exists x]].
        pose proof (msum_step (gn r) s t _ rest [UNextBc r] (set_ones (<[k:=ON false OTaken]> (ones s)) s) Ht Hthr) as HM. assert (Σ (gn r) [UNextBc r] = 1) as H1 by (cbn; unfold isn; by rewrite Nat.eqb_refl). change (gn r (UPollOne r k)) with 0 in HM. lia.
      * intros ? k2 _ HE. change ([] ++ log s = k2 ++ log s) in HE. apply app_inv_tail in HE as <-. apply not_elem_of_nil.
  - destruct (decide (gn r u = 0)) as [Hg|Hg].
    + split.
      * exists h'. split; [done|]. destruct (HK x HB Hx) as [Hx1|Hn]; [|by left]. right; right. split; [|split_and!; [done|done|exists x; by rewrite Eb]].
        pose proof (msum_step (gn r) s t u rest new s1 Ht Hthr) as HM. lia.
      * intros o k2 ->. exfalso. pose proof (reach_busyR s Hr r) as HB2.
        rewrite (msum_split (g_rf r) (gn r) (λ u, g_rf r u - gn r u)) in HB2 by (intros []; cbn; unfold isn; repeat case_match; lia).
        pose proof (msum_head (λ u, g_rf r u - gn r u) s t _ rest Ht) as H2. cbn in H2. unfold isn in H2. rewrite Nat.eqb_refl in H2.
        rewrite (at_some _ _ _ _ Hh) in HB2. unfold isrbusy in HB2. destruct (h_st h); lia.
    + assert (u = UNextBc r) as ->. { destruct u; try done. cbn in Hg. unfold isn in Hg. destruct (Nat.eqb_spec r0 r); [|lia]. by subst. }
      split; [|by intros o k2]. cbn [exec] in E. rewrite Hh in E. destruct (pop_broadcast (h_bq h) s) as [s2 [m|]] eqn:Ep; injection E as <- <-.
      * assert (hols s2 = hols s) as E2. { pose proof (pop_broadcast_hols (h_bq h) s) as E2. by rewrite Ep in E2. }
        eexists. split; [unfold deliver; repeat (progress (prj; autorewrite with fr_hols)); rewrite E2, list_lookup_alter, Hh; reflexivity|]. left. exact (λ x, x).
      * exfalso. unfold pop_broadcast in Ep. destruct (heap_pop bm_prio (bq_get s (h_bq h))) as [[m2 hp]|] eqn:E3.
        -- cbv zeta in Ep. repeat case_match; done.
        -- apply heap_pop_None in E3. rewrite E3 in Hx. by apply elem_of_nil in Hx.
Qed.
Lemma D_api B c o s r : reach s → D B c s r → D B c (api o s) r.
Proof.
  intros Hr (h & Hh & HD). destruct (api_same2 s o r h Hh) as (h' & Hh' & Eb & _).
  assert (receiving h ∨ ¬ receiving h) as [HR|HR] by (unfold receiving; destruct (h_st h); auto).
  2: { destruct (api_recv o s r h Hh HR) as (h2 & Hh2 & Hn). exists h2. split; [done|by left]. }
  exists h'. split; [done|]. destruct HD as [?|[(k & Hs & Hf & Hc)|(Hs & Ec & HB & x & Hx)]]; [done| |].
  - destruct (slot_api_ge o s r k) as [HL|(h2 & Hh2 & Hn)]; [|rewrite Hh' in Hh2; injection Hh2 as <-; by left].
    right; left. exists k. split; [lia|]. split; [eapply full_eq; [apply api_ones|done]|]. rewrite Eb, api_keep_b. exact Hc.
  - right; right. pose proof (msum_api (gn r) o s). split; [lia|]. split; [done|]. split; [done|]. exists x. by rewrite Eb, api_keep_b.
Qed.
Lemma D_collect B c s r : D B c s r → D B c (collect s) r.
Proof.
  intros (h & Hh & HD). assert (receiving h ∨ ¬ receiving h) as [HR|HR] by (unfold receiving; destruct (h_st h); auto).
  - rewrite (SystemNext.owned_collect s r h Hh (recv_gone h HR)). by exists h.
  - exists h. rewrite collect_hols. split; [done|by left].
Qed.
Lemma D_step B c s o r : reach s → (B = true → one_receiver s) → D B c s r → D B c (step s o) r ∧ ∃ k, log (step s o) = k ++ log s ∧ EvRecvPending r ∉ k.
Proof.
  intros Hr HO HD. unfold step.
  assert (∀ z, D B c z r → (∃ k, log z = k ++ log s ∧ EvRecvPending r ∉ k) → D B c (collect z) r ∧ ∃ k, log (collect z) = k ++ log s ∧ EvRecvPending r ∉ k) as HC.
  { intros z Hz (k & Hk & Hn). split; [by apply D_collect|]. unfold collect. destruct (chan_owned z); [by exists k|]. destruct (free_evs z) as (k2 & Hk2 & Hn2).
    exists (k2 ++ k). rewrite Hk2, Hk, app_assoc. split; [done|]. intros [(m & y & ? & _)%Hn2|?]%elem_of_app; done. }
  assert (∀ o, D B c (api o s) r → D B c (collect (api o s)) r ∧ ∃ k, log (collect (api o s)) = k ++ log s ∧ EvRecvPending r ∉ k) as HA.
  { intros o' Hz. apply HC; [done|]. destruct (api_evs o' s) as [->|(e & -> & He)]; [exists []; split; [done|by apply not_elem_of_nil]|]. exists [e]. split; [done|]. intros <-%elem_of_list_singleton. destruct o'; done. }
  destruct o as [t| | | | | | | | | | | | | | | | | | | | | | | | | | |]; try (apply HA; by apply D_api).
  pose proof (no_panic_ev _ (reach_step s t Hr)) as [Hp _]. destruct (thr s !! t) as [[|u rest]|] eqn:Ht.
  1,3: apply HC; unfold do_step; rewrite Ht; [done|exists []; split; [done|apply not_elem_of_nil]].
  destruct (exec u s) as [s1 new] eqn:E. pose proof (exec_thr u s) as Et. rewrite E in Et. cbn in Et. unfold do_step in Hp. rewrite Ht, E in Hp.
  destruct (D_exec B c s t u rest s1 new r Hr HO HD Ht E Et Hp) as [H1 H2]. apply HC; unfold do_step; rewrite Ht, E; [done|].
  destruct (exec_evs u s s1 new E) as (k & Hk & Hs). exists k. split; [done|]. intros Hi. specialize (Hs _ Hi). destruct Hs as [o ->]. by eapply H2.
Qed.
Lemma D_run B c s l r : reach s → (B = true → ∀ l1 l2, l = l1 ++ l2 → one_receiver (run s l1)) → D B c s r → D B c (run s l) r ∧ ∃ k, log (run s l) = k ++ log s ∧ EvRecvPending r ∉ k.
Proof.
  intros Hr. induction l as [|o l IH] using rev_ind; intros HO HD; [split; [done|]; exists []; split; [done|apply not_elem_of_nil]|].
  destruct IH as [H1 (k & Hk & Hn)]; [|done|]. { intros HB l1 l2 E. apply (HO HB l1 (l2 ++ [o])). by rewrite E, app_assoc. }
  destruct (D_step B c (run s l) o r) as [H2 (k2 & Hk2 & Hn2)]; [by apply reach_run|intros HB; by apply (HO HB l [o])|done|]. rewrite run_snoc. split; [done|]. exists (k2 ++ k).
  split; [by rewrite Hk2, Hk, app_assoc|]. by intros [?|?]%elem_of_app.
Qed.
Lemma notified_D c l l' r k : notified (run (init c) l) r k → (k ≠ CNewBroadcast ∨ one_at_a_time c (l ++ l')) → ∃ B, D B k (run (init c) l) r ∧ (B = true → one_at_a_time c (l ++ l')).
Proof.
  intros (h & o & rx & Hh & Hs & Ho) HK. assert (0 < slot (run (init c) l) r o) as HS. { unfold slot. rewrite (at_some _ _ _ _ Hh). unfold h_wait. rewrite Hs. unfold isn. rewrite Nat.eqb_refl. lia. }
  assert (full (run (init c) l) o k) as HF by by exists rx. destruct k as [m| |].
  1,3: exists false; split; [|done]; exists h; split; [done|]; right; left; exists o; split_and!; [done|exact HF|done].
  destruct HK as [|HK]; [done|]. exists true. split; [|done]. exists h; split; [done|]. right; left; exists o. split_and!; [done..|]. intros _. split; [done|].
  assert (W (run (init c) l)) as HW. { apply W_run. intros l1 l2 ->. apply (HK l1 (l2 ++ l')). by rewrite app_assoc. }
  apply (HW r h o Hh HS). unfold nb. by rewrite Ho.
Qed.
Lemma one_poll c l l' r k : notified (run (init c) l) r k → (k ≠ CNewBroadcast ∨ one_at_a_time c (l ++ l')) → ¬ newly (run (init c) l) (run (init c) (l ++ l')) (EvRecvPending r).
Proof.
  intros HN HK (ev & Hb & Hi). destruct (notified_D c l l' r k HN HK) as (B & HD & HB). rewrite run_app in Hb.
  destruct (D_run B k (run (init c) l) l' r) as [_ (k2 & Hk2 & Hn)]; [apply reach_run, reach_init| |done|].
  { intros HT l1 l2 E. rewrite <-run_app. apply (HB HT _ l2). by rewrite E, app_assoc. }
  unfold between in Hb. rewrite Hk2 in Hb. apply app_inv_tail in Hb as ->. done.
Qed.

(** ** The poll is over after two actions *)
Lemma only_rf s t u rest r g : reach s → thr s !! t = Some (u :: rest) → g_rf r u = 1 → (∀ u, g u ≤ g_rf r u) → 0 < msum g s → 0 < g u.
Proof.
  intros Hr Ht Hu Hg Hm. destruct (decide (g u = 0)) as [H0|H0]; [|lia]. exfalso. pose proof (reach_busyR s Hr r) as HB.
  rewrite (msum_split (g_rf r) g (λ u, g_rf r u - g u)) in HB by (intros v; specialize (Hg v); lia).
  pose proof (msum_head (λ u, g_rf r u - g u) s t u rest Ht) as H1. cbn beta in H1. rewrite Hu, H0 in H1.
  assert (at_ isrbusy (hols s) r ≤ 1) by (apply at_bound; intros []; unfold isrbusy; repeat case_match; lia). lia.
Qed.
Lemma poll_full B c s t rest r k : reach s → D B c s r → thr s !! t = Some (UPollOne r k :: rest) →
  ∃ h, hols s !! r = Some h ∧ full s k c.
Proof.
  intros Hr (h & Hh & HD) Ht. assert (g_rf r (UPollOne r k) = 1) as Hg by (cbn; unfold isn; by rewrite Nat.eqb_refl).
  destruct (busyR_at s t _ rest r Hr Ht Hg) as (h2 & Hh2 & Hb). rewrite Hh in Hh2. injection Hh2 as <-. exists h.
  destruct HD as [HD|[(k' & Hs & Hf & _)|(Hs & _)]]; [unfold receiving in HD; by rewrite Hb in HD| |].
  - unfold slot in Hs. rewrite (at_some _ _ _ _ Hh) in Hs. unfold h_wait in Hs. rewrite Hb in Hs. apply (only_rf s t (UPollOne r k) rest r (gp r k') Hr Ht Hg ltac:(intros []; cbn; unfold isn; repeat case_match; lia)) in Hs.
    cbn in Hs. unfold isn in Hs. destruct (Nat.eqb_spec k k'); [subst; eauto|lia].
  - apply (only_rf s t (UPollOne r k) rest r (gn r) Hr Ht Hg ltac:(intros []; cbn; unfold isn; repeat case_match; lia)) in Hs. cbn in Hs. lia.
Qed.
Lemma next_some B c s t rest r : reach s → D B c s r → thr s !! t = Some (UNextBc r :: rest) → c = CNewBroadcast ∧ ∃ h x, hols s !! r = Some h ∧ x ∈ bq_get s (h_bq h).
Proof.
  intros Hr (h & Hh & HD) Ht. assert (g_rf r (UNextBc r) = 1) as Hg by (cbn; unfold isn; by rewrite Nat.eqb_refl).
  destruct (busyR_at s t _ rest r Hr Ht Hg) as (h2 & Hh2 & Hb). rewrite Hh in Hh2. injection Hh2 as <-.
  destruct HD as [HD|[(k' & Hs & Hf & _)|(Hs & Ec & _ & x & Hx)]]; [unfold receiving in HD; by rewrite Hb in HD| |split; [done|]; by exists h, x].
  unfold slot in Hs. rewrite (at_some _ _ _ _ Hh) in Hs. unfold h_wait in Hs. rewrite Hb in Hs. apply (only_rf s t (UNextBc r) rest r (gp r k') Hr Ht Hg ltac:(intros []; cbn; unfold isn; repeat case_match; lia)) in Hs.
  cbn in Hs. lia.
Qed.
Lemma poll_act B c s t r k : reach s → D B c s r → thr s !! t = Some [UPollOne r k] → thr (do_step t s) !! t = Some [UNextBc r] ∨ ∃ a, answers c a ∧ log (do_step t s) = EvRecv r a :: log s.
Proof.
  intros Hr HD Ht. destruct (poll_full B c s t [] r k Hr HD Ht) as (h & Hh & rx & Ho). unfold do_step. rewrite Ht. cbn [exec]. rewrite Hh. unfold exec_poll_one. rewrite Ho.
  destruct c as [m| |]; cbn [app].
  2: { left. prj. apply list_lookup_insert. by eapply lookup_lt_Some. }
  all: right; eexists; split; [by instantiate (1 := ltac:(first [exact (ToOne m)|exact Shut]))|]; unfold deliver; repeat (progress (prj; autorewrite with fr_log)); reflexivity.
Qed.
Lemma next_act B c s t r : reach s → D B c s r → thr s !! t = Some [UNextBc r] → ∃ a k, answers c a ∧ log (do_step t s) = EvRecv r a :: k ++ log s.
Proof.
  intros Hr HD Ht. destruct (next_some B c s t [] r Hr HD Ht) as (-> & h & x & Hh & Hx). unfold do_step. rewrite Ht. cbn [exec]. rewrite Hh.
  destruct (pop_broadcast (h_bq h) s) as [s2 [m|]] eqn:Ep.
  - destruct (exec_evs (UNextBc r) s (deliver r (ToAll m) s2) []) as (k & Hk & _); [cbn [exec]; by rewrite Hh, Ep|].
    pose proof (pop_broadcast_log (h_bq h) s) as [x2 Hk2]. rewrite Ep in Hk2. cbn in Hk2. exists (ToAll m), (bq_evs x2). split; [done|]. unfold deliver. repeat (progress (prj; autorewrite with fr_log)). by rewrite Hk2.
  - exfalso. unfold pop_broadcast in Ep. destruct (heap_pop bm_prio (bq_get s (h_bq h))) as [[m2 hp]|] eqn:E3.
    + cbv zeta in Ep. repeat case_match; done.
    + apply heap_pop_None in E3. rewrite E3 in Hx. by apply elem_of_nil in Hx.
Qed.
Definition got (c : ctrl) (b s : state) (r : nat) : Prop := ∃ a k, answers c a ∧ log s = k ++ log b ∧ EvRecv r a ∈ k.
Lemma step_log s o : ∃ k, log (step s o) = k ++ log s.
Proof.
  assert (∀ z, (∃ k, log z = k ++ log s) → ∃ k, log (collect z) = k ++ log s) as HC.
  { intros z [k Hk]. unfold collect. destruct (chan_owned z); [by exists k|]. destruct (free_evs z) as (k2 & Hk2 & _). exists (k2 ++ k). by rewrite Hk2, Hk, app_assoc. }
  unfold step. assert (∀ o, ∃ k, log (api o s) = k ++ log s) as HA. { intros o'. destruct (api_evs o' s) as [->|(e & -> & _)]; [by exists []|by exists [e]]. }
  destruct o; apply HC; try apply HA. unfold do_step. destruct (thr s !! t) as [[|u rest]|] eqn:Ht; try by exists [].
  destruct (exec u s) as [s1 new] eqn:E. destruct (exec_evs u s s1 new E) as (k & Hk & _). by exists k.
Qed.
Lemma got_step c b s o r : got c b s r → got c b (step s o) r.
Proof. intros (a & k & Ha & Hk & Hi). destruct (step_log s o) as [k2 Hk2]. exists a, (k2 ++ k). split; [done|]. split; [by rewrite Hk2, Hk, app_assoc|]. apply elem_of_app. by right. Qed.
Lemma got_collect c b s r : got c b s r → got c b (collect s) r.
Proof.
  intros (a & k & Ha & Hk & Hi). unfold collect. destruct (chan_owned s); [by exists a, k|]. destruct (free_evs s) as (k2 & Hk2 & _). exists a, (k2 ++ k).
  split; [done|]. split; [by rewrite Hk2, Hk, app_assoc|]. apply elem_of_app. by right.
Qed.
(** The call [t] of [r] that began in [b] needs at most [n] more actions. *)
Definition Q (B : bool) (c : ctrl) (b : state) (t r n : nat) (s : state) : Prop := (∃ k, log s = k ++ log b) ∧
  (got c b s r ∨ D B c s r ∧ (1 ≤ n ∧ thr s !! t = Some [UNextBc r] ∨ 2 ≤ n ∧ ∃ k, thr s !! t = Some [UPollOne r k])).
Definition mine (t : nat) (o : op) : bool := match o with Step i => i =? t | _ => false end.
Lemma Q_step B c b t r n s o : reach s → (B = true → one_receiver s) → Q B c b t r n s → Q B c b t r (if mine t o then n - 1 else n) (step s o).
Proof.
  intros Hr HO [[kb Hkb] HQ]. split; [destruct (step_log s o) as [k Hk]; exists (k ++ kb); by rewrite Hk, Hkb, app_assoc|].
  destruct HQ as [HQ|[HD HQ]]; [left; by apply got_step|]. destruct (D_step B c s o r Hr HO HD) as [HD2 _].
  destruct (mine t o) eqn:Hm.
  - destruct o as [t'| | | | | | | | | | | | | | | | | | | | | | | | | | |]; try done. apply Nat.eqb_eq in Hm as ->. unfold step in *. destruct HQ as [[Hn Ht]|[Hn [k Ht]]].
    + left. destruct (next_act B c s t r Hr HD Ht) as (a & k & Ha & Hk). apply got_collect. exists a, (EvRecv r a :: k ++ kb). split; [done|]. split; [rewrite Hk, Hkb; cbn; by rewrite app_assoc|left].
    + destruct (poll_act B c s t r k Hr HD Ht) as [H|(a & Ha & Hk)].
      * right. split; [done|]. left. split; [lia|]. by rewrite collect_thr.
      * left. apply got_collect. exists a, (EvRecv r a :: kb). split; [done|]. split; [by rewrite Hk, Hkb|left].
  - right. split; [done|]. assert (thr (step s o) !! t = thr s !! t) as ->; [|done]. assert (t < length (thr s)) as Hl by (destruct HQ as [[_ H]|[_ [k H]]]; by eapply lookup_lt_Some).
    unfold step. rewrite collect_thr. assert (∀ o, thr (api o s) !! t = thr s !! t) as HA by (intros o'; destruct (api_thr o' s) as [k ->]; by apply lookup_app_l).
    destruct o as [t'| | | | | | | | | | | | | | | | | | | | | | | | | | |]; try apply HA. cbn in Hm. apply Nat.eqb_neq in Hm.
    unfold do_step. destruct (thr s !! t') as [[|u rest]|] eqn:Ht'; try done. destruct (exec u s) as [s1 new] eqn:E. pose proof (exec_thr u s) as Et. rewrite E in Et. cbn in Et. prj. rewrite Et. by apply list_lookup_insert_ne.
Qed.
Lemma Q_run B c b t r l n s : reach s → (B = true → ∀ l1 l2, l = l1 ++ l2 → one_receiver (run s l1)) → Q B c b t r n s → Q B c b t r (n - turns t l) (run s l).
Proof.
  intros Hr. induction l as [|o l IH] using rev_ind; intros HO HQ; [by rewrite Nat.sub_0_r|].
  rewrite run_snoc. assert (Q B c b t r (n - turns t l) (run s l)) as HQ1. { apply IH; [|done]. intros HB l1 l2 E. apply (HO HB l1 (l2 ++ [o])). by rewrite E, app_assoc. }
  apply (Q_step _ _ _ _ _ _ _ o) in HQ1; [|by apply reach_run|intros HB; by apply (HO HB l [o])].
  assert (turns t (l ++ [o]) = turns t l + if mine t o then 1 else 0) as ->.
  { unfold turns. rewrite List.filter_app, app_length. cbn. change (match o with Step i => i =? t | _ => false end) with (mine t o). by destruct (mine t o). }
  destruct (mine t o); [by rewrite Nat.sub_add_distr|by rewrite Nat.add_0_r].
Qed.
Lemma two_actions c l l' r k : notified (run (init c) l) r k → (k ≠ CNewBroadcast ∨ one_at_a_time c (l ++ APollRecv r :: l')) →
  2 ≤ turns (length (thr (run (init c) l))) l' → ∃ a, answers k a ∧ newly (run (init c) l) (run (init c) (l ++ APollRecv r :: l')) (EvRecv r a).
Proof.
  intros HN HK Hn. destruct (notified_D c l (APollRecv r :: l') r k HN HK) as (B & HD & HB). set (s := run (init c) l) in *. assert (reach s) as Hr by apply reach_run, reach_init.
  assert (B = true → one_receiver s) as HO1 by (intros HT; by apply (HB HT l (APollRecv r :: l'))).
  assert (Q B k s (length (thr s)) r 2 (step s (APollRecv r))) as HQ.
  { split; [apply step_log|]. right. destruct (D_step B k s (APollRecv r) r Hr HO1 HD) as [HD2 _]. split; [done|]. right. split; [done|].
    destruct HN as ([b x q w] & o & rx & Hh & Hs & Ho). cbn in Hs. subst x. exists o. unfold step. rewrite collect_thr. cbn [api]. rewrite Hh. prj. apply list_lookup_middle. done. }
  apply (Q_run B k s (length (thr s)) r l') in HQ as [_ HQ]; [|by apply reach_one|].
  - replace (2 - turns (length (thr s)) l') with 0 in HQ by lia. destruct HQ as [(a & ev & Ha & He & Hi)|[_ [[? _]|[? _]]]]; [|lia..].
    exists a. split; [done|]. exists ev. split; [|done]. unfold between. by rewrite run_app.
  - intros HT l1 l2 E. specialize (HB HT (l ++ APollRecv r :: l1) l2). rewrite run_app in HB. apply HB. rewrite E. by rewrite <-app_assoc.
Qed.
Lemma first_poll s r h : reach s → hols s !! r = Some h → h_st h = HRecvNew → offered s h → ∃ a, newly s (run s [APollRecv r; Step (length (thr s))]) (EvRecv r a).
Proof.
  intros Hr Hh Hs Hf. assert (r < length (hols s)) as Hl by by eapply lookup_lt_Some. destruct h as [b x k w]. cbn in Hs. subst x.
  assert (∃ z, step s (APollRecv r) = z ∧ reach z ∧ log z = log s ∧ thr z !! length (thr s) = Some [UTryRecv r] ∧ hols z !! r = Some (HO b HRecvBusy k (nwk s)) ∧ offered z (HO b HRecvBusy k (nwk s))) as (z & Ez & Hz & El & Ht & Hh2 & Hf2).
  { eexists. split; [reflexivity|]. split; [by apply reach_one|]. unfold step. cbn [api]. rewrite Hh. rewrite (SystemNext.owned_collect _ r (HO b HRecvBusy k (nwk s))); [|prj; by apply list_lookup_insert|done].
    split_and!; [done|prj; by apply list_lookup_middle|prj; by apply list_lookup_insert|exact Hf]. }
  unfold run. cbn [fold_left]. rewrite Ez. unfold step, do_step. rewrite Ht. destruct (exec (UTryRecv r) z) as [s1 new] eqn:E.
  assert (∃ a l, log s1 = EvRecv r a :: l ++ log s) as (a & l & Hk).
  { rewrite <-El. destruct (try_recv_cases z s1 new r _ Hz Hh2 E) as [(m & hp & l & _ & _ & _ & H & _)|[(m & hp & l & _ & _ & _ & H & _)|[(_ & _ & _ & _ & _ & H & _)|(H1 & H2 & H3 & _)]]]; [eauto|eauto|by exists Shut, []|].
    exfalso. destruct Hf2 as [H|[H|H]]; [done|done|lia]. }
  exists a. unfold collect. match goal with |- context [chan_owned ?y] => destruct (chan_owned y); [|destruct (free_evs y) as (k2 & Hk2 & _)] end.
  - exists (EvRecv r a :: l). split; [exact Hk|left].
  - exists (k2 ++ EvRecv r a :: l). split; [unfold between; rewrite Hk2, <-app_assoc; f_equal; exact Hk|]. apply elem_of_app. right. left.
Qed.
