(** The drop of a receive future right after its final poll. *)
From stdpp Require Import base numbers list list_numbers.
From Coq Require Import Lia.
From Verif Require Import Prio Heap State Model HeapProofs Frame Lib InvBusy InvCount Effects InvMsg InvOne InvOne2 InvBc Mono Events Spec Bridge FinishSpec FinishProofs
  InvHeap InvDisc InvWait FinalC FinalF FinalG FinalH FinalI ClaimsB System SystemInv SystemStop SystemNext PollSpec PollProofs.

(** ** After a poll that returned Pending *)
Lemma pending_idle s o r : newly s (step s o) (EvRecvPending r) → idle (step s o) r.
Proof.
  intros (k & Hb & Hi). unfold between in Hb.
  assert (∀ z, (∃ k, log z = k ++ log s ∧ EvRecvPending r ∉ k) → log (collect z) = k ++ log s → False) as HC.
  { intros z (k1 & Hk & Hn) H. unfold collect in H. destruct (chan_owned z); [rewrite Hk in H; by apply app_inv_tail in H as ->|]. destruct (free_evs z) as (k2 & Hk2 & Hn2).
    rewrite Hk2, Hk, app_assoc in H. apply app_inv_tail in H as <-. apply elem_of_app in Hi as [(m & y & ? & _)%Hn2|?]; done. }
  assert (∀ o, log (collect (api o s)) = k ++ log s → False) as HA.
  { intros o' H. eapply HC; [|exact H]. destruct (api_evs o' s) as [->|(e & -> & He)]; [exists []; split; [done|by apply not_elem_of_nil]|]. exists [e]. split; [done|].
    intros <-%elem_of_list_singleton. destruct o'; done. }
  unfold step in *. destruct o as [t| | | | | | | | | | | | | | | | | | | | | | | | | | |]; [|exfalso; match type of Hb with log (collect (api ?x s)) = _ => exact (HA x Hb) end..].
  unfold do_step in *. destruct (thr s !! t) as [[|u rest]|] eqn:Ht; [exfalso; apply (HC s); [exists []; split; [done|apply not_elem_of_nil]|exact Hb]| |exfalso; apply (HC s); [exists []; split; [done|apply not_elem_of_nil]|exact Hb]].
  destruct (exec u s) as [s1 new] eqn:E.
  assert ((∃ o, u = UPollOne r o) ∨ ∀ o, u ≠ UPollOne r o) as [[o ->]|Hu].
  { destruct u; try (right; intros ?; done). destruct (decide (r0 = r)) as [->|]; [left; eauto|right; congruence]. }
  2: { exfalso. match type of Hb with log (collect ?z) = _ => apply (HC z); [|exact Hb] end. prj. destruct (exec_evs u s s1 new E) as (k1 & Hk1 & Hs). exists k1. split; [done|]. intros Hi1. destruct (Hs _ Hi1) as [o ->]. by eapply Hu. }
  cbn [exec] in E. destruct (hols s !! r) as [h|] eqn:Hh; [|injection E as <- <-; exfalso; match type of Hb with log (collect ?z) = _ => apply (HC z); [|exact Hb] end; exists []; split; [done|apply not_elem_of_nil]].
  assert (r < length (hols s)) as Hl by by eapply lookup_lt_Some. unfold exec_poll_one in E. destruct (ones s !! o) as [[rx st]|] eqn:Ho; [destruct st as [w|c| |]|].
  - injection E as <- <-. match goal with |- context [collect ?z] => assert (idle z r) as Hz end.
    { exists (HO (h_bq h) (HRecvWait o) (h_run h) (h_wk h)), o, rx, (Some (h_wk h)). unfold set_hst. prj. rewrite Hh. prj.
      split_and!; [by apply list_lookup_insert|done|]. apply list_lookup_insert. by eapply lookup_lt_Some. }
    destruct Hz as (h2 & o2 & rx2 & w2 & H1 & H2 & H3). rewrite (SystemNext.owned_collect _ r h2 H1); [|by rewrite H2]. by exists h2, o2, rx2, w2.
  - exfalso. match type of Hb with log (collect ?z) = _ => apply (HC z); [|exact Hb] end. destruct c as [m| |]; injection E as <- <-; unfold deliver; repeat (progress (prj; autorewrite with fr_log)).
    1,3: eexists [_]; split; [done|]; by intros ?%elem_of_list_singleton.
    exists []; split; [done|apply not_elem_of_nil].
  - exfalso. match type of Hb with log (collect ?z) = _ => apply (HC z); [|exact Hb] end. injection E as <- <-. repeat (progress (prj; autorewrite with fr_log)). eexists [_]; split; [done|]. by intros ?%elem_of_list_singleton.
  - exfalso. match type of Hb with log (collect ?z) = _ => apply (HC z); [|exact Hb] end. injection E as <- <-. exists []; split; [done|apply not_elem_of_nil].
  - exfalso. match type of Hb with log (collect ?z) = _ => apply (HC z); [|exact Hb] end. injection E as <- <-. repeat (progress (prj; autorewrite with fr_log)). eexists [_]; split; [done|]. by intros ?%elem_of_list_singleton.
Qed.

(** ** The drop *)
Definition left_of (o b k : nat) : list micro := drop k [UCancel o; URxDec; UBqRel b; UOneDrop o].
Definition dropping (s z : state) (t o b k : nat) : Prop :=
  reach z ∧ thr z !! t = Some (left_of o b k) ∧ unmoved s z ∧ (if k <? 2 then 2 ≤ rxc z else 1 ≤ rxc z) ∧ ∃ rx w, ones z !! o = Some (ON rx (OEmpty w)).
Lemma collect_rx s : reach s → 1 ≤ rxc s → collect s = s.
Proof. intros Hr H. unfold collect. destruct (chan_owned s) eqn:E; [done|]. rewrite (owned0_rx s Hr E) in H. lia. Qed.
Lemma unmoved_eq s y z : unmoved s y → uq z = uq y → log z = log y → ws1 z = ws1 y → wsA z = wsA y → bqueues z = bqueues y → hols z = hols y → unmoved s z.
Proof.
  intros (H1 & H2 & H3 & H4 & H5) E1 E2 E3 E4 E5 E6. split_and!; [congruence..|]. intros b Hb. unfold backlog. rewrite E5. apply H5. unfold owned_queue in *. by rewrite E6 in Hb.
Qed.
Lemma dropping_step s z t o b k : dropping s z t o b k → dropping s (step z (Step t)) t o b (S k).
Proof.
  intros (Hr & Ht & HU & Hx & rx & w & Ho). assert (t < length (thr z)) as Hl by by eapply lookup_lt_Some. pose proof (reach_step z t Hr) as Hz. unfold step. revert Hz. unfold do_step. rewrite Ht.
  destruct k as [|[|[|[|k]]]]; cbn [left_of drop] in *; cbn in Hx.
  - cbn [exec]. unfold exec_cancel. rewrite Ho. cbn [app]. intros Hz. rewrite collect_rx by (exact Hz || (cbn; lia)).
    split; [done|]. split; [prj; by apply list_lookup_insert|]. split; [by eapply unmoved_eq|]. split; [done|]. by exists rx, w.
  - cbn [exec]. destruct (Nat.eqb_spec (rxc z) 1) as [?|_]; [lia|]. cbn [app]. intros Hz. rewrite collect_rx by (exact Hz || (cbn; lia)).
    split; [done|]. split; [prj; by apply list_lookup_insert|]. split; [by eapply unmoved_eq|]. split; [cbn; lia|]. by exists rx, w.
  - cbn [exec]. destruct (bqueues z !! b) as [q|] eqn:Hq; cbn [app]; intros Hz; rewrite collect_rx by (exact Hz || (cbn; lia));
      (split; [done|]; split; [prj; by apply list_lookup_insert|]; split; [|split; [done|by exists rx, w]]); [|by eapply unmoved_eq].
    destruct HU as (H1 & H2 & H3 & H4 & H5). split_and!; [done..|]. intros b' Hb'. rewrite <-H5 by done.
    pose proof (owned_live _ b' Hz Hb') as HL. unfold bq_live, backlog in *. prjin HL. prj. destruct (decide (b' = b)) as [->|Hn]; [|by rewrite list_lookup_insert_ne].
    rewrite Hq. rewrite list_lookup_insert in * by (by eapply lookup_lt_Some). cbn in *. destruct (Nat.eqb_spec (bq_refs q) 1) as [E|]; [by rewrite E in HL|done].
  - cbn [exec]. rewrite Ho. cbn [app]. intros Hz. rewrite collect_rx by (exact Hz || (cbn; lia)).
    split; [done|]. split; [prj; by apply list_lookup_insert|]. split; [by eapply unmoved_eq|]. split; [done|]. exists false, w. prj. apply list_lookup_insert. by eapply lookup_lt_Some.
  - change (drop k [] : list micro) with (@drop micro k []). rewrite drop_nil in *. intros Hz. rewrite collect_rx by (exact Hz || lia).
    split; [done|]. split; [unfold left_of; cbn; by rewrite Ht|]. split_and!; try done. by exists rx, w.
Qed.
Lemma drop_idle s r n : reach s → idle s r → 2 ≤ rxc s → unmoved s (run s (ADropHol r :: replicate n (Step (length (thr s))))).
Proof.
  intros Hr (h & o & rx & w & Hh & Hs & Ho) Hx. set (t := length (thr s)). assert (r < length (hols s)) as Hl by by eapply lookup_lt_Some.
  set (b := h_bq h). set (s1 := call (UCancel o :: rx_drop b ++ [UOneDrop o]) (set_hols (<[r := HO b HGone (h_run h) (h_wk h)]> (hols s)) s)).
  assert (thr s1 !! t = Some [UCancel o; URxDec; UBqRel b; UOneDrop o]) as T1 by (apply list_lookup_middle; done).
  assert (step s (ADropHol r) = s1) as E1. { unfold step. cbn [api]. rewrite Hh. unfold hol_drop. rewrite Hs. by eapply (FinalG.owned_collect s1), (busy_owned s1 t). }
  assert (dropping s s1 t o b 0) as H1.
  { split; [rewrite <-E1; by apply reach_one|]. split; [done|]. split; [by split_and!|]. split; [done|]. by exists rx, w. }
  change (run s (ADropHol r :: replicate n (Step t))) with (run (step s (ADropHol r)) (replicate n (Step t))). rewrite E1.
  assert (∀ m z k, dropping s z t o b k → dropping s (run z (replicate m (Step t))) t o b (m + k)) as HI.
  { induction m as [|m IH]; intros z k Hk; [done|]. cbn [replicate]. change (run z (Step t :: replicate m (Step t))) with (run (step z (Step t)) (replicate m (Step t))).
    replace (S m + k) with (m + S k) by lia. by apply IH, dropping_step. }
  apply (HI n) in H1. apply H1.
Qed.
Lemma final_poll s o r n : reach s → newly s (step s o) (EvRecvPending r) → let z := step s o in 2 ≤ rxc z →
  unmoved z (run z (ADropHol r :: replicate n (Step (length (thr z))))).
Proof. intros Hr Hn z Hx. apply drop_idle; [by apply reach_one|by apply pending_idle|done]. Qed.
