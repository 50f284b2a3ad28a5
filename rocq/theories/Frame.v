(** Which fields each model function leaves alone (generated by tools/gen_frame.py;
    pure boilerplate). *)
From stdpp Require Import base numbers list.
From Verif Require Import Prio Heap State Model.

Lemma fold_left_proj {S X B} (p : S → B) (g : S → X → S) l s :
  (∀ s x, p (g s x) = p s) → p (fold_left g l s) = p s.
Proof. intros H. revert s; induction l as [|x l IH]; intros s; simpl; [done|]. by rewrite IH, H. Qed.

Lemma base_cap v s : cap (set_thr v s) = cap s.
Proof. done. Qed.
#[export] Hint Rewrite base_cap : fr_cap.
Lemma base_txc v s : txc (set_thr v s) = txc s.
Proof. done. Qed.
#[export] Hint Rewrite base_txc : fr_txc.
Lemma base_rxc v s : rxc (set_thr v s) = rxc s.
Proof. done. Qed.
#[export] Hint Rewrite base_rxc : fr_rxc.
Lemma base_uq v s : uq (set_thr v s) = uq s.
Proof. done. Qed.
#[export] Hint Rewrite base_uq : fr_uq.
Lemma base_ws1 v s : ws1 (set_thr v s) = ws1 s.
Proof. done. Qed.
#[export] Hint Rewrite base_ws1 : fr_ws1.
Lemma base_wsA v s : wsA (set_thr v s) = wsA s.
Proof. done. Qed.
#[export] Hint Rewrite base_wsA : fr_wsA.
Lemma base_wrx v s : wrx (set_thr v s) = wrx s.
Proof. done. Qed.
#[export] Hint Rewrite base_wrx : fr_wrx.
Lemma base_bqs v s : bqs (set_thr v s) = bqs s.
Proof. done. Qed.
#[export] Hint Rewrite base_bqs : fr_bqs.
Lemma base_tail v s : tail (set_thr v s) = tail s.
Proof. done. Qed.
#[export] Hint Rewrite base_tail : fr_tail.
Lemma base_cells1 v s : cells1 (set_thr v s) = cells1 s.
Proof. done. Qed.
#[export] Hint Rewrite base_cells1 : fr_cells1.
Lemma base_cellsA v s : cellsA (set_thr v s) = cellsA s.
Proof. done. Qed.
#[export] Hint Rewrite base_cellsA : fr_cellsA.
Lemma base_ones v s : ones (set_thr v s) = ones s.
Proof. done. Qed.
#[export] Hint Rewrite base_ones : fr_ones.
Lemma base_bqueues v s : bqueues (set_thr v s) = bqueues s.
Proof. done. Qed.
#[export] Hint Rewrite base_bqueues : fr_bqueues.
Lemma base_reps v s : reps (set_thr v s) = reps s.
Proof. done. Qed.
#[export] Hint Rewrite base_reps : fr_reps.
Lemma base_lsts v s : lsts (set_thr v s) = lsts s.
Proof. done. Qed.
#[export] Hint Rewrite base_lsts : fr_lsts.
Lemma base_addrs v s : addrs (set_thr v s) = addrs s.
Proof. done. Qed.
#[export] Hint Rewrite base_addrs : fr_addrs.
Lemma base_hols v s : hols (set_thr v s) = hols s.
Proof. done. Qed.
#[export] Hint Rewrite base_hols : fr_hols.
Lemma base_sfs v s : sfs (set_thr v s) = sfs s.
Proof. done. Qed.
#[export] Hint Rewrite base_sfs : fr_sfs.
Lemma base_rcvs v s : rcvs (set_thr v s) = rcvs s.
Proof. done. Qed.
#[export] Hint Rewrite base_rcvs : fr_rcvs.
Lemma base_jhs v s : jhs (set_thr v s) = jhs s.
Proof. done. Qed.
#[export] Hint Rewrite base_jhs : fr_jhs.
Lemma base_thr v s : thr (set_log v s) = thr s.
Proof. done. Qed.
#[export] Hint Rewrite base_thr : fr_thr.
Lemma base_nbm v s : nbm (set_thr v s) = nbm s.
Proof. done. Qed.
#[export] Hint Rewrite base_nbm : fr_nbm.
Lemma base_nwk v s : nwk (set_thr v s) = nwk s.
Proof. done. Qed.
#[export] Hint Rewrite base_nwk : fr_nwk.
Lemma base_wakes v s : wakes (set_thr v s) = wakes s.
Proof. done. Qed.
#[export] Hint Rewrite base_wakes : fr_wakes.
Lemma base_log v s : log (set_thr v s) = log s.
Proof. done. Qed.
#[export] Hint Rewrite base_log : fr_log.

Lemma emit_cap e s : cap (emit e s) = cap s.
Proof. unfold emit; repeat (case_match; simplify_eq/=); simpl; autorewrite with fr_cap; simpl; autorewrite with fr_cap; done. Qed.
#[export] Hint Rewrite emit_cap : fr_cap.
Lemma emit_txc e s : txc (emit e s) = txc s.
Proof. unfold emit; repeat (case_match; simplify_eq/=); simpl; autorewrite with fr_txc; simpl; autorewrite with fr_txc; done. Qed.
#[export] Hint Rewrite emit_txc : fr_txc.
Lemma emit_rxc e s : rxc (emit e s) = rxc s.
Proof. unfold emit; repeat (case_match; simplify_eq/=); simpl; autorewrite with fr_rxc; simpl; autorewrite with fr_rxc; done. Qed.
#[export] Hint Rewrite emit_rxc : fr_rxc.
Lemma emit_uq e s : uq (emit e s) = uq s.
Proof. unfold emit; repeat (case_match; simplify_eq/=); simpl; autorewrite with fr_uq; simpl; autorewrite with fr_uq; done. Qed.
#[export] Hint Rewrite emit_uq : fr_uq.
Lemma emit_ws1 e s : ws1 (emit e s) = ws1 s.
Proof. unfold emit; repeat (case_match; simplify_eq/=); simpl; autorewrite with fr_ws1; simpl; autorewrite with fr_ws1; done. Qed.
#[export] Hint Rewrite emit_ws1 : fr_ws1.
Lemma emit_wsA e s : wsA (emit e s) = wsA s.
Proof. unfold emit; repeat (case_match; simplify_eq/=); simpl; autorewrite with fr_wsA; simpl; autorewrite with fr_wsA; done. Qed.
#[export] Hint Rewrite emit_wsA : fr_wsA.
Lemma emit_wrx e s : wrx (emit e s) = wrx s.
Proof. unfold emit; repeat (case_match; simplify_eq/=); simpl; autorewrite with fr_wrx; simpl; autorewrite with fr_wrx; done. Qed.
#[export] Hint Rewrite emit_wrx : fr_wrx.
Lemma emit_bqs e s : bqs (emit e s) = bqs s.
Proof. unfold emit; repeat (case_match; simplify_eq/=); simpl; autorewrite with fr_bqs; simpl; autorewrite with fr_bqs; done. Qed.
#[export] Hint Rewrite emit_bqs : fr_bqs.
Lemma emit_tail e s : tail (emit e s) = tail s.
Proof. unfold emit; repeat (case_match; simplify_eq/=); simpl; autorewrite with fr_tail; simpl; autorewrite with fr_tail; done. Qed.
#[export] Hint Rewrite emit_tail : fr_tail.
Lemma emit_cells1 e s : cells1 (emit e s) = cells1 s.
Proof. unfold emit; repeat (case_match; simplify_eq/=); simpl; autorewrite with fr_cells1; simpl; autorewrite with fr_cells1; done. Qed.
#[export] Hint Rewrite emit_cells1 : fr_cells1.
Lemma emit_cellsA e s : cellsA (emit e s) = cellsA s.
Proof. unfold emit; repeat (case_match; simplify_eq/=); simpl; autorewrite with fr_cellsA; simpl; autorewrite with fr_cellsA; done. Qed.
#[export] Hint Rewrite emit_cellsA : fr_cellsA.
Lemma emit_ones e s : ones (emit e s) = ones s.
Proof. unfold emit; repeat (case_match; simplify_eq/=); simpl; autorewrite with fr_ones; simpl; autorewrite with fr_ones; done. Qed.
#[export] Hint Rewrite emit_ones : fr_ones.
Lemma emit_bqueues e s : bqueues (emit e s) = bqueues s.
Proof. unfold emit; repeat (case_match; simplify_eq/=); simpl; autorewrite with fr_bqueues; simpl; autorewrite with fr_bqueues; done. Qed.
#[export] Hint Rewrite emit_bqueues : fr_bqueues.
Lemma emit_reps e s : reps (emit e s) = reps s.
Proof. unfold emit; repeat (case_match; simplify_eq/=); simpl; autorewrite with fr_reps; simpl; autorewrite with fr_reps; done. Qed.
#[export] Hint Rewrite emit_reps : fr_reps.
Lemma emit_lsts e s : lsts (emit e s) = lsts s.
Proof. unfold emit; repeat (case_match; simplify_eq/=); simpl; autorewrite with fr_lsts; simpl; autorewrite with fr_lsts; done. Qed.
#[export] Hint Rewrite emit_lsts : fr_lsts.
Lemma emit_addrs e s : addrs (emit e s) = addrs s.
Proof. unfold emit; repeat (case_match; simplify_eq/=); simpl; autorewrite with fr_addrs; simpl; autorewrite with fr_addrs; done. Qed.
#[export] Hint Rewrite emit_addrs : fr_addrs.
Lemma emit_hols e s : hols (emit e s) = hols s.
Proof. unfold emit; repeat (case_match; simplify_eq/=); simpl; autorewrite with fr_hols; simpl; autorewrite with fr_hols; done. Qed.
#[export] Hint Rewrite emit_hols : fr_hols.
Lemma emit_sfs e s : sfs (emit e s) = sfs s.
Proof. unfold emit; repeat (case_match; simplify_eq/=); simpl; autorewrite with fr_sfs; simpl; autorewrite with fr_sfs; done. Qed.
#[export] Hint Rewrite emit_sfs : fr_sfs.
Lemma emit_rcvs e s : rcvs (emit e s) = rcvs s.
Proof. unfold emit; repeat (case_match; simplify_eq/=); simpl; autorewrite with fr_rcvs; simpl; autorewrite with fr_rcvs; done. Qed.
#[export] Hint Rewrite emit_rcvs : fr_rcvs.
Lemma emit_jhs e s : jhs (emit e s) = jhs s.
Proof. unfold emit; repeat (case_match; simplify_eq/=); simpl; autorewrite with fr_jhs; simpl; autorewrite with fr_jhs; done. Qed.
#[export] Hint Rewrite emit_jhs : fr_jhs.
Lemma emit_thr e s : thr (emit e s) = thr s.
Proof. unfold emit; repeat (case_match; simplify_eq/=); simpl; autorewrite with fr_thr; simpl; autorewrite with fr_thr; done. Qed.
#[export] Hint Rewrite emit_thr : fr_thr.
Lemma emit_nbm e s : nbm (emit e s) = nbm s.
Proof. unfold emit; repeat (case_match; simplify_eq/=); simpl; autorewrite with fr_nbm; simpl; autorewrite with fr_nbm; done. Qed.
#[export] Hint Rewrite emit_nbm : fr_nbm.
Lemma emit_nwk e s : nwk (emit e s) = nwk s.
Proof. unfold emit; repeat (case_match; simplify_eq/=); simpl; autorewrite with fr_nwk; simpl; autorewrite with fr_nwk; done. Qed.
#[export] Hint Rewrite emit_nwk : fr_nwk.
Lemma emit_wakes e s : wakes (emit e s) = wakes s.
Proof. unfold emit; repeat (case_match; simplify_eq/=); simpl; autorewrite with fr_wakes; simpl; autorewrite with fr_wakes; done. Qed.
#[export] Hint Rewrite emit_wakes : fr_wakes.

Lemma wake_cap w s : cap (wake w s) = cap s.
Proof. unfold wake; repeat (case_match; simplify_eq/=); simpl; autorewrite with fr_cap; simpl; autorewrite with fr_cap; done. Qed.
#[export] Hint Rewrite wake_cap : fr_cap.
Lemma wake_txc w s : txc (wake w s) = txc s.
Proof. unfold wake; repeat (case_match; simplify_eq/=); simpl; autorewrite with fr_txc; simpl; autorewrite with fr_txc; done. Qed.
#[export] Hint Rewrite wake_txc : fr_txc.
Lemma wake_rxc w s : rxc (wake w s) = rxc s.
Proof. unfold wake; repeat (case_match; simplify_eq/=); simpl; autorewrite with fr_rxc; simpl; autorewrite with fr_rxc; done. Qed.
#[export] Hint Rewrite wake_rxc : fr_rxc.
Lemma wake_uq w s : uq (wake w s) = uq s.
Proof. unfold wake; repeat (case_match; simplify_eq/=); simpl; autorewrite with fr_uq; simpl; autorewrite with fr_uq; done. Qed.
#[export] Hint Rewrite wake_uq : fr_uq.
Lemma wake_ws1 w s : ws1 (wake w s) = ws1 s.
Proof. unfold wake; repeat (case_match; simplify_eq/=); simpl; autorewrite with fr_ws1; simpl; autorewrite with fr_ws1; done. Qed.
#[export] Hint Rewrite wake_ws1 : fr_ws1.
Lemma wake_wsA w s : wsA (wake w s) = wsA s.
Proof. unfold wake; repeat (case_match; simplify_eq/=); simpl; autorewrite with fr_wsA; simpl; autorewrite with fr_wsA; done. Qed.
#[export] Hint Rewrite wake_wsA : fr_wsA.
Lemma wake_wrx w s : wrx (wake w s) = wrx s.
Proof. unfold wake; repeat (case_match; simplify_eq/=); simpl; autorewrite with fr_wrx; simpl; autorewrite with fr_wrx; done. Qed.
#[export] Hint Rewrite wake_wrx : fr_wrx.
Lemma wake_bqs w s : bqs (wake w s) = bqs s.
Proof. unfold wake; repeat (case_match; simplify_eq/=); simpl; autorewrite with fr_bqs; simpl; autorewrite with fr_bqs; done. Qed.
#[export] Hint Rewrite wake_bqs : fr_bqs.
Lemma wake_tail w s : tail (wake w s) = tail s.
Proof. unfold wake; repeat (case_match; simplify_eq/=); simpl; autorewrite with fr_tail; simpl; autorewrite with fr_tail; done. Qed.
#[export] Hint Rewrite wake_tail : fr_tail.
Lemma wake_cells1 w s : cells1 (wake w s) = cells1 s.
Proof. unfold wake; repeat (case_match; simplify_eq/=); simpl; autorewrite with fr_cells1; simpl; autorewrite with fr_cells1; done. Qed.
#[export] Hint Rewrite wake_cells1 : fr_cells1.
Lemma wake_cellsA w s : cellsA (wake w s) = cellsA s.
Proof. unfold wake; repeat (case_match; simplify_eq/=); simpl; autorewrite with fr_cellsA; simpl; autorewrite with fr_cellsA; done. Qed.
#[export] Hint Rewrite wake_cellsA : fr_cellsA.
Lemma wake_ones w s : ones (wake w s) = ones s.
Proof. unfold wake; repeat (case_match; simplify_eq/=); simpl; autorewrite with fr_ones; simpl; autorewrite with fr_ones; done. Qed.
#[export] Hint Rewrite wake_ones : fr_ones.
Lemma wake_bqueues w s : bqueues (wake w s) = bqueues s.
Proof. unfold wake; repeat (case_match; simplify_eq/=); simpl; autorewrite with fr_bqueues; simpl; autorewrite with fr_bqueues; done. Qed.
#[export] Hint Rewrite wake_bqueues : fr_bqueues.
Lemma wake_reps w s : reps (wake w s) = reps s.
Proof. unfold wake; repeat (case_match; simplify_eq/=); simpl; autorewrite with fr_reps; simpl; autorewrite with fr_reps; done. Qed.
#[export] Hint Rewrite wake_reps : fr_reps.
Lemma wake_lsts w s : lsts (wake w s) = lsts s.
Proof. unfold wake; repeat (case_match; simplify_eq/=); simpl; autorewrite with fr_lsts; simpl; autorewrite with fr_lsts; done. Qed.
#[export] Hint Rewrite wake_lsts : fr_lsts.
Lemma wake_addrs w s : addrs (wake w s) = addrs s.
Proof. unfold wake; repeat (case_match; simplify_eq/=); simpl; autorewrite with fr_addrs; simpl; autorewrite with fr_addrs; done. Qed.
#[export] Hint Rewrite wake_addrs : fr_addrs.
Lemma wake_hols w s : hols (wake w s) = hols s.
Proof. unfold wake; repeat (case_match; simplify_eq/=); simpl; autorewrite with fr_hols; simpl; autorewrite with fr_hols; done. Qed.
#[export] Hint Rewrite wake_hols : fr_hols.
Lemma wake_sfs w s : sfs (wake w s) = sfs s.
Proof. unfold wake; repeat (case_match; simplify_eq/=); simpl; autorewrite with fr_sfs; simpl; autorewrite with fr_sfs; done. Qed.
#[export] Hint Rewrite wake_sfs : fr_sfs.
Lemma wake_rcvs w s : rcvs (wake w s) = rcvs s.
Proof. unfold wake; repeat (case_match; simplify_eq/=); simpl; autorewrite with fr_rcvs; simpl; autorewrite with fr_rcvs; done. Qed.
#[export] Hint Rewrite wake_rcvs : fr_rcvs.
Lemma wake_jhs w s : jhs (wake w s) = jhs s.
Proof. unfold wake; repeat (case_match; simplify_eq/=); simpl; autorewrite with fr_jhs; simpl; autorewrite with fr_jhs; done. Qed.
#[export] Hint Rewrite wake_jhs : fr_jhs.
Lemma wake_thr w s : thr (wake w s) = thr s.
Proof. unfold wake; repeat (case_match; simplify_eq/=); simpl; autorewrite with fr_thr; simpl; autorewrite with fr_thr; done. Qed.
#[export] Hint Rewrite wake_thr : fr_thr.
Lemma wake_nbm w s : nbm (wake w s) = nbm s.
Proof. unfold wake; repeat (case_match; simplify_eq/=); simpl; autorewrite with fr_nbm; simpl; autorewrite with fr_nbm; done. Qed.
#[export] Hint Rewrite wake_nbm : fr_nbm.
Lemma wake_nwk w s : nwk (wake w s) = nwk s.
Proof. unfold wake; repeat (case_match; simplify_eq/=); simpl; autorewrite with fr_nwk; simpl; autorewrite with fr_nwk; done. Qed.
#[export] Hint Rewrite wake_nwk : fr_nwk.
Lemma wake_log w s : log (wake w s) = log s.
Proof. unfold wake; repeat (case_match; simplify_eq/=); simpl; autorewrite with fr_log; simpl; autorewrite with fr_log; done. Qed.
#[export] Hint Rewrite wake_log : fr_log.

Lemma close_reply_cap m s : cap (close_reply m s) = cap s.
Proof. unfold close_reply; repeat (case_match; simplify_eq/=); simpl; autorewrite with fr_cap; simpl; autorewrite with fr_cap; done. Qed.
#[export] Hint Rewrite close_reply_cap : fr_cap.
Lemma close_reply_txc m s : txc (close_reply m s) = txc s.
Proof. unfold close_reply; repeat (case_match; simplify_eq/=); simpl; autorewrite with fr_txc; simpl; autorewrite with fr_txc; done. Qed.
#[export] Hint Rewrite close_reply_txc : fr_txc.
Lemma close_reply_rxc m s : rxc (close_reply m s) = rxc s.
Proof. unfold close_reply; repeat (case_match; simplify_eq/=); simpl; autorewrite with fr_rxc; simpl; autorewrite with fr_rxc; done. Qed.
#[export] Hint Rewrite close_reply_rxc : fr_rxc.
Lemma close_reply_uq m s : uq (close_reply m s) = uq s.
Proof. unfold close_reply; repeat (case_match; simplify_eq/=); simpl; autorewrite with fr_uq; simpl; autorewrite with fr_uq; done. Qed.
#[export] Hint Rewrite close_reply_uq : fr_uq.
Lemma close_reply_ws1 m s : ws1 (close_reply m s) = ws1 s.
Proof. unfold close_reply; repeat (case_match; simplify_eq/=); simpl; autorewrite with fr_ws1; simpl; autorewrite with fr_ws1; done. Qed.
#[export] Hint Rewrite close_reply_ws1 : fr_ws1.
Lemma close_reply_wsA m s : wsA (close_reply m s) = wsA s.
Proof. unfold close_reply; repeat (case_match; simplify_eq/=); simpl; autorewrite with fr_wsA; simpl; autorewrite with fr_wsA; done. Qed.
#[export] Hint Rewrite close_reply_wsA : fr_wsA.
Lemma close_reply_wrx m s : wrx (close_reply m s) = wrx s.
Proof. unfold close_reply; repeat (case_match; simplify_eq/=); simpl; autorewrite with fr_wrx; simpl; autorewrite with fr_wrx; done. Qed.
#[export] Hint Rewrite close_reply_wrx : fr_wrx.
Lemma close_reply_bqs m s : bqs (close_reply m s) = bqs s.
Proof. unfold close_reply; repeat (case_match; simplify_eq/=); simpl; autorewrite with fr_bqs; simpl; autorewrite with fr_bqs; done. Qed.
#[export] Hint Rewrite close_reply_bqs : fr_bqs.
Lemma close_reply_tail m s : tail (close_reply m s) = tail s.
Proof. unfold close_reply; repeat (case_match; simplify_eq/=); simpl; autorewrite with fr_tail; simpl; autorewrite with fr_tail; done. Qed.
#[export] Hint Rewrite close_reply_tail : fr_tail.
Lemma close_reply_cells1 m s : cells1 (close_reply m s) = cells1 s.
Proof. unfold close_reply; repeat (case_match; simplify_eq/=); simpl; autorewrite with fr_cells1; simpl; autorewrite with fr_cells1; done. Qed.
#[export] Hint Rewrite close_reply_cells1 : fr_cells1.
Lemma close_reply_cellsA m s : cellsA (close_reply m s) = cellsA s.
Proof. unfold close_reply; repeat (case_match; simplify_eq/=); simpl; autorewrite with fr_cellsA; simpl; autorewrite with fr_cellsA; done. Qed.
#[export] Hint Rewrite close_reply_cellsA : fr_cellsA.
Lemma close_reply_ones m s : ones (close_reply m s) = ones s.
Proof. unfold close_reply; repeat (case_match; simplify_eq/=); simpl; autorewrite with fr_ones; simpl; autorewrite with fr_ones; done. Qed.
#[export] Hint Rewrite close_reply_ones : fr_ones.
Lemma close_reply_bqueues m s : bqueues (close_reply m s) = bqueues s.
Proof. unfold close_reply; repeat (case_match; simplify_eq/=); simpl; autorewrite with fr_bqueues; simpl; autorewrite with fr_bqueues; done. Qed.
#[export] Hint Rewrite close_reply_bqueues : fr_bqueues.
Lemma close_reply_lsts m s : lsts (close_reply m s) = lsts s.
Proof. unfold close_reply; repeat (case_match; simplify_eq/=); simpl; autorewrite with fr_lsts; simpl; autorewrite with fr_lsts; done. Qed.
#[export] Hint Rewrite close_reply_lsts : fr_lsts.
Lemma close_reply_addrs m s : addrs (close_reply m s) = addrs s.
Proof. unfold close_reply; repeat (case_match; simplify_eq/=); simpl; autorewrite with fr_addrs; simpl; autorewrite with fr_addrs; done. Qed.
#[export] Hint Rewrite close_reply_addrs : fr_addrs.
Lemma close_reply_hols m s : hols (close_reply m s) = hols s.
Proof. unfold close_reply; repeat (case_match; simplify_eq/=); simpl; autorewrite with fr_hols; simpl; autorewrite with fr_hols; done. Qed.
#[export] Hint Rewrite close_reply_hols : fr_hols.
Lemma close_reply_sfs m s : sfs (close_reply m s) = sfs s.
Proof. unfold close_reply; repeat (case_match; simplify_eq/=); simpl; autorewrite with fr_sfs; simpl; autorewrite with fr_sfs; done. Qed.
#[export] Hint Rewrite close_reply_sfs : fr_sfs.
Lemma close_reply_rcvs m s : rcvs (close_reply m s) = rcvs s.
Proof. unfold close_reply; repeat (case_match; simplify_eq/=); simpl; autorewrite with fr_rcvs; simpl; autorewrite with fr_rcvs; done. Qed.
#[export] Hint Rewrite close_reply_rcvs : fr_rcvs.
Lemma close_reply_jhs m s : jhs (close_reply m s) = jhs s.
Proof. unfold close_reply; repeat (case_match; simplify_eq/=); simpl; autorewrite with fr_jhs; simpl; autorewrite with fr_jhs; done. Qed.
#[export] Hint Rewrite close_reply_jhs : fr_jhs.
Lemma close_reply_thr m s : thr (close_reply m s) = thr s.
Proof. unfold close_reply; repeat (case_match; simplify_eq/=); simpl; autorewrite with fr_thr; simpl; autorewrite with fr_thr; done. Qed.
#[export] Hint Rewrite close_reply_thr : fr_thr.
Lemma close_reply_nbm m s : nbm (close_reply m s) = nbm s.
Proof. unfold close_reply; repeat (case_match; simplify_eq/=); simpl; autorewrite with fr_nbm; simpl; autorewrite with fr_nbm; done. Qed.
#[export] Hint Rewrite close_reply_nbm : fr_nbm.
Lemma close_reply_nwk m s : nwk (close_reply m s) = nwk s.
Proof. unfold close_reply; repeat (case_match; simplify_eq/=); simpl; autorewrite with fr_nwk; simpl; autorewrite with fr_nwk; done. Qed.
#[export] Hint Rewrite close_reply_nwk : fr_nwk.
Lemma close_reply_log m s : log (close_reply m s) = log s.
Proof. unfold close_reply; repeat (case_match; simplify_eq/=); simpl; autorewrite with fr_log; simpl; autorewrite with fr_log; done. Qed.
#[export] Hint Rewrite close_reply_log : fr_log.

Lemma drop_umsg_cap y m s : cap (drop_umsg y m s) = cap s.
Proof. unfold drop_umsg; repeat (case_match; simplify_eq/=); simpl; autorewrite with fr_cap; simpl; autorewrite with fr_cap; done. Qed.
#[export] Hint Rewrite drop_umsg_cap : fr_cap.
Lemma drop_umsg_txc y m s : txc (drop_umsg y m s) = txc s.
Proof. unfold drop_umsg; repeat (case_match; simplify_eq/=); simpl; autorewrite with fr_txc; simpl; autorewrite with fr_txc; done. Qed.
#[export] Hint Rewrite drop_umsg_txc : fr_txc.
Lemma drop_umsg_rxc y m s : rxc (drop_umsg y m s) = rxc s.
Proof. unfold drop_umsg; repeat (case_match; simplify_eq/=); simpl; autorewrite with fr_rxc; simpl; autorewrite with fr_rxc; done. Qed.
#[export] Hint Rewrite drop_umsg_rxc : fr_rxc.
Lemma drop_umsg_uq y m s : uq (drop_umsg y m s) = uq s.
Proof. unfold drop_umsg; repeat (case_match; simplify_eq/=); simpl; autorewrite with fr_uq; simpl; autorewrite with fr_uq; done. Qed.
#[export] Hint Rewrite drop_umsg_uq : fr_uq.
Lemma drop_umsg_ws1 y m s : ws1 (drop_umsg y m s) = ws1 s.
Proof. unfold drop_umsg; repeat (case_match; simplify_eq/=); simpl; autorewrite with fr_ws1; simpl; autorewrite with fr_ws1; done. Qed.
#[export] Hint Rewrite drop_umsg_ws1 : fr_ws1.
Lemma drop_umsg_wsA y m s : wsA (drop_umsg y m s) = wsA s.
Proof. unfold drop_umsg; repeat (case_match; simplify_eq/=); simpl; autorewrite with fr_wsA; simpl; autorewrite with fr_wsA; done. Qed.
#[export] Hint Rewrite drop_umsg_wsA : fr_wsA.
Lemma drop_umsg_wrx y m s : wrx (drop_umsg y m s) = wrx s.
Proof. unfold drop_umsg; repeat (case_match; simplify_eq/=); simpl; autorewrite with fr_wrx; simpl; autorewrite with fr_wrx; done. Qed.
#[export] Hint Rewrite drop_umsg_wrx : fr_wrx.
Lemma drop_umsg_bqs y m s : bqs (drop_umsg y m s) = bqs s.
Proof. unfold drop_umsg; repeat (case_match; simplify_eq/=); simpl; autorewrite with fr_bqs; simpl; autorewrite with fr_bqs; done. Qed.
#[export] Hint Rewrite drop_umsg_bqs : fr_bqs.
Lemma drop_umsg_tail y m s : tail (drop_umsg y m s) = tail s.
Proof. unfold drop_umsg; repeat (case_match; simplify_eq/=); simpl; autorewrite with fr_tail; simpl; autorewrite with fr_tail; done. Qed.
#[export] Hint Rewrite drop_umsg_tail : fr_tail.
Lemma drop_umsg_cells1 y m s : cells1 (drop_umsg y m s) = cells1 s.
Proof. unfold drop_umsg; repeat (case_match; simplify_eq/=); simpl; autorewrite with fr_cells1; simpl; autorewrite with fr_cells1; done. Qed.
#[export] Hint Rewrite drop_umsg_cells1 : fr_cells1.
Lemma drop_umsg_cellsA y m s : cellsA (drop_umsg y m s) = cellsA s.
Proof. unfold drop_umsg; repeat (case_match; simplify_eq/=); simpl; autorewrite with fr_cellsA; simpl; autorewrite with fr_cellsA; done. Qed.
#[export] Hint Rewrite drop_umsg_cellsA : fr_cellsA.
Lemma drop_umsg_ones y m s : ones (drop_umsg y m s) = ones s.
Proof. unfold drop_umsg; repeat (case_match; simplify_eq/=); simpl; autorewrite with fr_ones; simpl; autorewrite with fr_ones; done. Qed.
#[export] Hint Rewrite drop_umsg_ones : fr_ones.
Lemma drop_umsg_bqueues y m s : bqueues (drop_umsg y m s) = bqueues s.
Proof. unfold drop_umsg; repeat (case_match; simplify_eq/=); simpl; autorewrite with fr_bqueues; simpl; autorewrite with fr_bqueues; done. Qed.
#[export] Hint Rewrite drop_umsg_bqueues : fr_bqueues.
Lemma drop_umsg_lsts y m s : lsts (drop_umsg y m s) = lsts s.
Proof. unfold drop_umsg; repeat (case_match; simplify_eq/=); simpl; autorewrite with fr_lsts; simpl; autorewrite with fr_lsts; done. Qed.
#[export] Hint Rewrite drop_umsg_lsts : fr_lsts.
Lemma drop_umsg_addrs y m s : addrs (drop_umsg y m s) = addrs s.
Proof. unfold drop_umsg; repeat (case_match; simplify_eq/=); simpl; autorewrite with fr_addrs; simpl; autorewrite with fr_addrs; done. Qed.
#[export] Hint Rewrite drop_umsg_addrs : fr_addrs.
Lemma drop_umsg_hols y m s : hols (drop_umsg y m s) = hols s.
Proof. unfold drop_umsg; repeat (case_match; simplify_eq/=); simpl; autorewrite with fr_hols; simpl; autorewrite with fr_hols; done. Qed.
#[export] Hint Rewrite drop_umsg_hols : fr_hols.
Lemma drop_umsg_sfs y m s : sfs (drop_umsg y m s) = sfs s.
Proof. unfold drop_umsg; repeat (case_match; simplify_eq/=); simpl; autorewrite with fr_sfs; simpl; autorewrite with fr_sfs; done. Qed.
#[export] Hint Rewrite drop_umsg_sfs : fr_sfs.
Lemma drop_umsg_rcvs y m s : rcvs (drop_umsg y m s) = rcvs s.
Proof. unfold drop_umsg; repeat (case_match; simplify_eq/=); simpl; autorewrite with fr_rcvs; simpl; autorewrite with fr_rcvs; done. Qed.
#[export] Hint Rewrite drop_umsg_rcvs : fr_rcvs.
Lemma drop_umsg_jhs y m s : jhs (drop_umsg y m s) = jhs s.
Proof. unfold drop_umsg; repeat (case_match; simplify_eq/=); simpl; autorewrite with fr_jhs; simpl; autorewrite with fr_jhs; done. Qed.
#[export] Hint Rewrite drop_umsg_jhs : fr_jhs.
Lemma drop_umsg_thr y m s : thr (drop_umsg y m s) = thr s.
Proof. unfold drop_umsg; repeat (case_match; simplify_eq/=); simpl; autorewrite with fr_thr; simpl; autorewrite with fr_thr; done. Qed.
#[export] Hint Rewrite drop_umsg_thr : fr_thr.
Lemma drop_umsg_nbm y m s : nbm (drop_umsg y m s) = nbm s.
Proof. unfold drop_umsg; repeat (case_match; simplify_eq/=); simpl; autorewrite with fr_nbm; simpl; autorewrite with fr_nbm; done. Qed.
#[export] Hint Rewrite drop_umsg_nbm : fr_nbm.
Lemma drop_umsg_nwk y m s : nwk (drop_umsg y m s) = nwk s.
Proof. unfold drop_umsg; repeat (case_match; simplify_eq/=); simpl; autorewrite with fr_nwk; simpl; autorewrite with fr_nwk; done. Qed.
#[export] Hint Rewrite drop_umsg_nwk : fr_nwk.

Lemma drop_umsgs_cap y l s : cap (drop_umsgs y l s) = cap s.
Proof. unfold drop_umsgs; apply fold_left_proj; intros; try case_match; autorewrite with fr_cap; done. Qed.
#[export] Hint Rewrite drop_umsgs_cap : fr_cap.
Lemma drop_umsgs_txc y l s : txc (drop_umsgs y l s) = txc s.
Proof. unfold drop_umsgs; apply fold_left_proj; intros; try case_match; autorewrite with fr_txc; done. Qed.
#[export] Hint Rewrite drop_umsgs_txc : fr_txc.
Lemma drop_umsgs_rxc y l s : rxc (drop_umsgs y l s) = rxc s.
Proof. unfold drop_umsgs; apply fold_left_proj; intros; try case_match; autorewrite with fr_rxc; done. Qed.
#[export] Hint Rewrite drop_umsgs_rxc : fr_rxc.
Lemma drop_umsgs_uq y l s : uq (drop_umsgs y l s) = uq s.
Proof. unfold drop_umsgs; apply fold_left_proj; intros; try case_match; autorewrite with fr_uq; done. Qed.
#[export] Hint Rewrite drop_umsgs_uq : fr_uq.
Lemma drop_umsgs_ws1 y l s : ws1 (drop_umsgs y l s) = ws1 s.
Proof. unfold drop_umsgs; apply fold_left_proj; intros; try case_match; autorewrite with fr_ws1; done. Qed.
#[export] Hint Rewrite drop_umsgs_ws1 : fr_ws1.
Lemma drop_umsgs_wsA y l s : wsA (drop_umsgs y l s) = wsA s.
Proof. unfold drop_umsgs; apply fold_left_proj; intros; try case_match; autorewrite with fr_wsA; done. Qed.
#[export] Hint Rewrite drop_umsgs_wsA : fr_wsA.
Lemma drop_umsgs_wrx y l s : wrx (drop_umsgs y l s) = wrx s.
Proof. unfold drop_umsgs; apply fold_left_proj; intros; try case_match; autorewrite with fr_wrx; done. Qed.
#[export] Hint Rewrite drop_umsgs_wrx : fr_wrx.
Lemma drop_umsgs_bqs y l s : bqs (drop_umsgs y l s) = bqs s.
Proof. unfold drop_umsgs; apply fold_left_proj; intros; try case_match; autorewrite with fr_bqs; done. Qed.
#[export] Hint Rewrite drop_umsgs_bqs : fr_bqs.
Lemma drop_umsgs_tail y l s : tail (drop_umsgs y l s) = tail s.
Proof. unfold drop_umsgs; apply fold_left_proj; intros; try case_match; autorewrite with fr_tail; done. Qed.
#[export] Hint Rewrite drop_umsgs_tail : fr_tail.
Lemma drop_umsgs_cells1 y l s : cells1 (drop_umsgs y l s) = cells1 s.
Proof. unfold drop_umsgs; apply fold_left_proj; intros; try case_match; autorewrite with fr_cells1; done. Qed.
#[export] Hint Rewrite drop_umsgs_cells1 : fr_cells1.
Lemma drop_umsgs_cellsA y l s : cellsA (drop_umsgs y l s) = cellsA s.
Proof. unfold drop_umsgs; apply fold_left_proj; intros; try case_match; autorewrite with fr_cellsA; done. Qed.
#[export] Hint Rewrite drop_umsgs_cellsA : fr_cellsA.
Lemma drop_umsgs_ones y l s : ones (drop_umsgs y l s) = ones s.
Proof. unfold drop_umsgs; apply fold_left_proj; intros; try case_match; autorewrite with fr_ones; done. Qed.
#[export] Hint Rewrite drop_umsgs_ones : fr_ones.
Lemma drop_umsgs_bqueues y l s : bqueues (drop_umsgs y l s) = bqueues s.
Proof. unfold drop_umsgs; apply fold_left_proj; intros; try case_match; autorewrite with fr_bqueues; done. Qed.
#[export] Hint Rewrite drop_umsgs_bqueues : fr_bqueues.
Lemma drop_umsgs_lsts y l s : lsts (drop_umsgs y l s) = lsts s.
Proof. unfold drop_umsgs; apply fold_left_proj; intros; try case_match; autorewrite with fr_lsts; done. Qed.
#[export] Hint Rewrite drop_umsgs_lsts : fr_lsts.
Lemma drop_umsgs_addrs y l s : addrs (drop_umsgs y l s) = addrs s.
Proof. unfold drop_umsgs; apply fold_left_proj; intros; try case_match; autorewrite with fr_addrs; done. Qed.
#[export] Hint Rewrite drop_umsgs_addrs : fr_addrs.
Lemma drop_umsgs_hols y l s : hols (drop_umsgs y l s) = hols s.
Proof. unfold drop_umsgs; apply fold_left_proj; intros; try case_match; autorewrite with fr_hols; done. Qed.
#[export] Hint Rewrite drop_umsgs_hols : fr_hols.
Lemma drop_umsgs_sfs y l s : sfs (drop_umsgs y l s) = sfs s.
Proof. unfold drop_umsgs; apply fold_left_proj; intros; try case_match; autorewrite with fr_sfs; done. Qed.
#[export] Hint Rewrite drop_umsgs_sfs : fr_sfs.
Lemma drop_umsgs_rcvs y l s : rcvs (drop_umsgs y l s) = rcvs s.
Proof. unfold drop_umsgs; apply fold_left_proj; intros; try case_match; autorewrite with fr_rcvs; done. Qed.
#[export] Hint Rewrite drop_umsgs_rcvs : fr_rcvs.
Lemma drop_umsgs_jhs y l s : jhs (drop_umsgs y l s) = jhs s.
Proof. unfold drop_umsgs; apply fold_left_proj; intros; try case_match; autorewrite with fr_jhs; done. Qed.
#[export] Hint Rewrite drop_umsgs_jhs : fr_jhs.
Lemma drop_umsgs_thr y l s : thr (drop_umsgs y l s) = thr s.
Proof. unfold drop_umsgs; apply fold_left_proj; intros; try case_match; autorewrite with fr_thr; done. Qed.
#[export] Hint Rewrite drop_umsgs_thr : fr_thr.
Lemma drop_umsgs_nbm y l s : nbm (drop_umsgs y l s) = nbm s.
Proof. unfold drop_umsgs; apply fold_left_proj; intros; try case_match; autorewrite with fr_nbm; done. Qed.
#[export] Hint Rewrite drop_umsgs_nbm : fr_nbm.
Lemma drop_umsgs_nwk y l s : nwk (drop_umsgs y l s) = nwk s.
Proof. unfold drop_umsgs; apply fold_left_proj; intros; try case_match; autorewrite with fr_nwk; done. Qed.
#[export] Hint Rewrite drop_umsgs_nwk : fr_nwk.

Lemma close_handle1_cap s c : cap (close_handle1 s c) = cap s.
Proof. unfold close_handle1; repeat (case_match; simplify_eq/=); simpl; autorewrite with fr_cap; simpl; autorewrite with fr_cap; done. Qed.
#[export] Hint Rewrite close_handle1_cap : fr_cap.
Lemma close_handle1_txc s c : txc (close_handle1 s c) = txc s.
Proof. unfold close_handle1; repeat (case_match; simplify_eq/=); simpl; autorewrite with fr_txc; simpl; autorewrite with fr_txc; done. Qed.
#[export] Hint Rewrite close_handle1_txc : fr_txc.
Lemma close_handle1_rxc s c : rxc (close_handle1 s c) = rxc s.
Proof. unfold close_handle1; repeat (case_match; simplify_eq/=); simpl; autorewrite with fr_rxc; simpl; autorewrite with fr_rxc; done. Qed.
#[export] Hint Rewrite close_handle1_rxc : fr_rxc.
Lemma close_handle1_uq s c : uq (close_handle1 s c) = uq s.
Proof. unfold close_handle1; repeat (case_match; simplify_eq/=); simpl; autorewrite with fr_uq; simpl; autorewrite with fr_uq; done. Qed.
#[export] Hint Rewrite close_handle1_uq : fr_uq.
Lemma close_handle1_ws1 s c : ws1 (close_handle1 s c) = ws1 s.
Proof. unfold close_handle1; repeat (case_match; simplify_eq/=); simpl; autorewrite with fr_ws1; simpl; autorewrite with fr_ws1; done. Qed.
#[export] Hint Rewrite close_handle1_ws1 : fr_ws1.
Lemma close_handle1_wsA s c : wsA (close_handle1 s c) = wsA s.
Proof. unfold close_handle1; repeat (case_match; simplify_eq/=); simpl; autorewrite with fr_wsA; simpl; autorewrite with fr_wsA; done. Qed.
#[export] Hint Rewrite close_handle1_wsA : fr_wsA.
Lemma close_handle1_wrx s c : wrx (close_handle1 s c) = wrx s.
Proof. unfold close_handle1; repeat (case_match; simplify_eq/=); simpl; autorewrite with fr_wrx; simpl; autorewrite with fr_wrx; done. Qed.
#[export] Hint Rewrite close_handle1_wrx : fr_wrx.
Lemma close_handle1_bqs s c : bqs (close_handle1 s c) = bqs s.
Proof. unfold close_handle1; repeat (case_match; simplify_eq/=); simpl; autorewrite with fr_bqs; simpl; autorewrite with fr_bqs; done. Qed.
#[export] Hint Rewrite close_handle1_bqs : fr_bqs.
Lemma close_handle1_tail s c : tail (close_handle1 s c) = tail s.
Proof. unfold close_handle1; repeat (case_match; simplify_eq/=); simpl; autorewrite with fr_tail; simpl; autorewrite with fr_tail; done. Qed.
#[export] Hint Rewrite close_handle1_tail : fr_tail.
Lemma close_handle1_cellsA s c : cellsA (close_handle1 s c) = cellsA s.
Proof. unfold close_handle1; repeat (case_match; simplify_eq/=); simpl; autorewrite with fr_cellsA; simpl; autorewrite with fr_cellsA; done. Qed.
#[export] Hint Rewrite close_handle1_cellsA : fr_cellsA.
Lemma close_handle1_ones s c : ones (close_handle1 s c) = ones s.
Proof. unfold close_handle1; repeat (case_match; simplify_eq/=); simpl; autorewrite with fr_ones; simpl; autorewrite with fr_ones; done. Qed.
#[export] Hint Rewrite close_handle1_ones : fr_ones.
Lemma close_handle1_bqueues s c : bqueues (close_handle1 s c) = bqueues s.
Proof. unfold close_handle1; repeat (case_match; simplify_eq/=); simpl; autorewrite with fr_bqueues; simpl; autorewrite with fr_bqueues; done. Qed.
#[export] Hint Rewrite close_handle1_bqueues : fr_bqueues.
Lemma close_handle1_lsts s c : lsts (close_handle1 s c) = lsts s.
Proof. unfold close_handle1; repeat (case_match; simplify_eq/=); simpl; autorewrite with fr_lsts; simpl; autorewrite with fr_lsts; done. Qed.
#[export] Hint Rewrite close_handle1_lsts : fr_lsts.
Lemma close_handle1_addrs s c : addrs (close_handle1 s c) = addrs s.
Proof. unfold close_handle1; repeat (case_match; simplify_eq/=); simpl; autorewrite with fr_addrs; simpl; autorewrite with fr_addrs; done. Qed.
#[export] Hint Rewrite close_handle1_addrs : fr_addrs.
Lemma close_handle1_hols s c : hols (close_handle1 s c) = hols s.
Proof. unfold close_handle1; repeat (case_match; simplify_eq/=); simpl; autorewrite with fr_hols; simpl; autorewrite with fr_hols; done. Qed.
#[export] Hint Rewrite close_handle1_hols : fr_hols.
Lemma close_handle1_sfs s c : sfs (close_handle1 s c) = sfs s.
Proof. unfold close_handle1; repeat (case_match; simplify_eq/=); simpl; autorewrite with fr_sfs; simpl; autorewrite with fr_sfs; done. Qed.
#[export] Hint Rewrite close_handle1_sfs : fr_sfs.
Lemma close_handle1_rcvs s c : rcvs (close_handle1 s c) = rcvs s.
Proof. unfold close_handle1; repeat (case_match; simplify_eq/=); simpl; autorewrite with fr_rcvs; simpl; autorewrite with fr_rcvs; done. Qed.
#[export] Hint Rewrite close_handle1_rcvs : fr_rcvs.
Lemma close_handle1_jhs s c : jhs (close_handle1 s c) = jhs s.
Proof. unfold close_handle1; repeat (case_match; simplify_eq/=); simpl; autorewrite with fr_jhs; simpl; autorewrite with fr_jhs; done. Qed.
#[export] Hint Rewrite close_handle1_jhs : fr_jhs.
Lemma close_handle1_thr s c : thr (close_handle1 s c) = thr s.
Proof. unfold close_handle1; repeat (case_match; simplify_eq/=); simpl; autorewrite with fr_thr; simpl; autorewrite with fr_thr; done. Qed.
#[export] Hint Rewrite close_handle1_thr : fr_thr.
Lemma close_handle1_nbm s c : nbm (close_handle1 s c) = nbm s.
Proof. unfold close_handle1; repeat (case_match; simplify_eq/=); simpl; autorewrite with fr_nbm; simpl; autorewrite with fr_nbm; done. Qed.
#[export] Hint Rewrite close_handle1_nbm : fr_nbm.
Lemma close_handle1_nwk s c : nwk (close_handle1 s c) = nwk s.
Proof. unfold close_handle1; repeat (case_match; simplify_eq/=); simpl; autorewrite with fr_nwk; simpl; autorewrite with fr_nwk; done. Qed.
#[export] Hint Rewrite close_handle1_nwk : fr_nwk.

Lemma close_handleA_cap s c : cap (close_handleA s c) = cap s.
Proof. unfold close_handleA; repeat (case_match; simplify_eq/=); simpl; autorewrite with fr_cap; simpl; autorewrite with fr_cap; done. Qed.
#[export] Hint Rewrite close_handleA_cap : fr_cap.
Lemma close_handleA_txc s c : txc (close_handleA s c) = txc s.
Proof. unfold close_handleA; repeat (case_match; simplify_eq/=); simpl; autorewrite with fr_txc; simpl; autorewrite with fr_txc; done. Qed.
#[export] Hint Rewrite close_handleA_txc : fr_txc.
Lemma close_handleA_rxc s c : rxc (close_handleA s c) = rxc s.
Proof. unfold close_handleA; repeat (case_match; simplify_eq/=); simpl; autorewrite with fr_rxc; simpl; autorewrite with fr_rxc; done. Qed.
#[export] Hint Rewrite close_handleA_rxc : fr_rxc.
Lemma close_handleA_uq s c : uq (close_handleA s c) = uq s.
Proof. unfold close_handleA; repeat (case_match; simplify_eq/=); simpl; autorewrite with fr_uq; simpl; autorewrite with fr_uq; done. Qed.
#[export] Hint Rewrite close_handleA_uq : fr_uq.
Lemma close_handleA_ws1 s c : ws1 (close_handleA s c) = ws1 s.
Proof. unfold close_handleA; repeat (case_match; simplify_eq/=); simpl; autorewrite with fr_ws1; simpl; autorewrite with fr_ws1; done. Qed.
#[export] Hint Rewrite close_handleA_ws1 : fr_ws1.
Lemma close_handleA_wsA s c : wsA (close_handleA s c) = wsA s.
Proof. unfold close_handleA; repeat (case_match; simplify_eq/=); simpl; autorewrite with fr_wsA; simpl; autorewrite with fr_wsA; done. Qed.
#[export] Hint Rewrite close_handleA_wsA : fr_wsA.
Lemma close_handleA_wrx s c : wrx (close_handleA s c) = wrx s.
Proof. unfold close_handleA; repeat (case_match; simplify_eq/=); simpl; autorewrite with fr_wrx; simpl; autorewrite with fr_wrx; done. Qed.
#[export] Hint Rewrite close_handleA_wrx : fr_wrx.
Lemma close_handleA_bqs s c : bqs (close_handleA s c) = bqs s.
Proof. unfold close_handleA; repeat (case_match; simplify_eq/=); simpl; autorewrite with fr_bqs; simpl; autorewrite with fr_bqs; done. Qed.
#[export] Hint Rewrite close_handleA_bqs : fr_bqs.
Lemma close_handleA_tail s c : tail (close_handleA s c) = tail s.
Proof. unfold close_handleA; repeat (case_match; simplify_eq/=); simpl; autorewrite with fr_tail; simpl; autorewrite with fr_tail; done. Qed.
#[export] Hint Rewrite close_handleA_tail : fr_tail.
Lemma close_handleA_cells1 s c : cells1 (close_handleA s c) = cells1 s.
Proof. unfold close_handleA; repeat (case_match; simplify_eq/=); simpl; autorewrite with fr_cells1; simpl; autorewrite with fr_cells1; done. Qed.
#[export] Hint Rewrite close_handleA_cells1 : fr_cells1.
Lemma close_handleA_ones s c : ones (close_handleA s c) = ones s.
Proof. unfold close_handleA; repeat (case_match; simplify_eq/=); simpl; autorewrite with fr_ones; simpl; autorewrite with fr_ones; done. Qed.
#[export] Hint Rewrite close_handleA_ones : fr_ones.
Lemma close_handleA_bqueues s c : bqueues (close_handleA s c) = bqueues s.
Proof. unfold close_handleA; repeat (case_match; simplify_eq/=); simpl; autorewrite with fr_bqueues; simpl; autorewrite with fr_bqueues; done. Qed.
#[export] Hint Rewrite close_handleA_bqueues : fr_bqueues.
Lemma close_handleA_reps s c : reps (close_handleA s c) = reps s.
Proof. unfold close_handleA; repeat (case_match; simplify_eq/=); simpl; autorewrite with fr_reps; simpl; autorewrite with fr_reps; done. Qed.
#[export] Hint Rewrite close_handleA_reps : fr_reps.
Lemma close_handleA_lsts s c : lsts (close_handleA s c) = lsts s.
Proof. unfold close_handleA; repeat (case_match; simplify_eq/=); simpl; autorewrite with fr_lsts; simpl; autorewrite with fr_lsts; done. Qed.
#[export] Hint Rewrite close_handleA_lsts : fr_lsts.
Lemma close_handleA_addrs s c : addrs (close_handleA s c) = addrs s.
Proof. unfold close_handleA; repeat (case_match; simplify_eq/=); simpl; autorewrite with fr_addrs; simpl; autorewrite with fr_addrs; done. Qed.
#[export] Hint Rewrite close_handleA_addrs : fr_addrs.
Lemma close_handleA_hols s c : hols (close_handleA s c) = hols s.
Proof. unfold close_handleA; repeat (case_match; simplify_eq/=); simpl; autorewrite with fr_hols; simpl; autorewrite with fr_hols; done. Qed.
#[export] Hint Rewrite close_handleA_hols : fr_hols.
Lemma close_handleA_sfs s c : sfs (close_handleA s c) = sfs s.
Proof. unfold close_handleA; repeat (case_match; simplify_eq/=); simpl; autorewrite with fr_sfs; simpl; autorewrite with fr_sfs; done. Qed.
#[export] Hint Rewrite close_handleA_sfs : fr_sfs.
Lemma close_handleA_rcvs s c : rcvs (close_handleA s c) = rcvs s.
Proof. unfold close_handleA; repeat (case_match; simplify_eq/=); simpl; autorewrite with fr_rcvs; simpl; autorewrite with fr_rcvs; done. Qed.
#[export] Hint Rewrite close_handleA_rcvs : fr_rcvs.
Lemma close_handleA_jhs s c : jhs (close_handleA s c) = jhs s.
Proof. unfold close_handleA; repeat (case_match; simplify_eq/=); simpl; autorewrite with fr_jhs; simpl; autorewrite with fr_jhs; done. Qed.
#[export] Hint Rewrite close_handleA_jhs : fr_jhs.
Lemma close_handleA_thr s c : thr (close_handleA s c) = thr s.
Proof. unfold close_handleA; repeat (case_match; simplify_eq/=); simpl; autorewrite with fr_thr; simpl; autorewrite with fr_thr; done. Qed.
#[export] Hint Rewrite close_handleA_thr : fr_thr.
Lemma close_handleA_nbm s c : nbm (close_handleA s c) = nbm s.
Proof. unfold close_handleA; repeat (case_match; simplify_eq/=); simpl; autorewrite with fr_nbm; simpl; autorewrite with fr_nbm; done. Qed.
#[export] Hint Rewrite close_handleA_nbm : fr_nbm.
Lemma close_handleA_nwk s c : nwk (close_handleA s c) = nwk s.
Proof. unfold close_handleA; repeat (case_match; simplify_eq/=); simpl; autorewrite with fr_nwk; simpl; autorewrite with fr_nwk; done. Qed.
#[export] Hint Rewrite close_handleA_nwk : fr_nwk.
Lemma close_handleA_log s c : log (close_handleA s c) = log s.
Proof. unfold close_handleA; repeat (case_match; simplify_eq/=); simpl; autorewrite with fr_log; simpl; autorewrite with fr_log; done. Qed.
#[export] Hint Rewrite close_handleA_log : fr_log.

Lemma close_handles1_cap l s : cap (fold_left close_handle1 l s) = cap s.
Proof. apply fold_left_proj; intros; try case_match; autorewrite with fr_cap; done. Qed.
#[export] Hint Rewrite close_handles1_cap : fr_cap.
Lemma close_handles1_txc l s : txc (fold_left close_handle1 l s) = txc s.
Proof. apply fold_left_proj; intros; try case_match; autorewrite with fr_txc; done. Qed.
#[export] Hint Rewrite close_handles1_txc : fr_txc.
Lemma close_handles1_rxc l s : rxc (fold_left close_handle1 l s) = rxc s.
Proof. apply fold_left_proj; intros; try case_match; autorewrite with fr_rxc; done. Qed.
#[export] Hint Rewrite close_handles1_rxc : fr_rxc.
Lemma close_handles1_uq l s : uq (fold_left close_handle1 l s) = uq s.
Proof. apply fold_left_proj; intros; try case_match; autorewrite with fr_uq; done. Qed.
#[export] Hint Rewrite close_handles1_uq : fr_uq.
Lemma close_handles1_ws1 l s : ws1 (fold_left close_handle1 l s) = ws1 s.
Proof. apply fold_left_proj; intros; try case_match; autorewrite with fr_ws1; done. Qed.
#[export] Hint Rewrite close_handles1_ws1 : fr_ws1.
Lemma close_handles1_wsA l s : wsA (fold_left close_handle1 l s) = wsA s.
Proof. apply fold_left_proj; intros; try case_match; autorewrite with fr_wsA; done. Qed.
#[export] Hint Rewrite close_handles1_wsA : fr_wsA.
Lemma close_handles1_wrx l s : wrx (fold_left close_handle1 l s) = wrx s.
Proof. apply fold_left_proj; intros; try case_match; autorewrite with fr_wrx; done. Qed.
#[export] Hint Rewrite close_handles1_wrx : fr_wrx.
Lemma close_handles1_bqs l s : bqs (fold_left close_handle1 l s) = bqs s.
Proof. apply fold_left_proj; intros; try case_match; autorewrite with fr_bqs; done. Qed.
#[export] Hint Rewrite close_handles1_bqs : fr_bqs.
Lemma close_handles1_tail l s : tail (fold_left close_handle1 l s) = tail s.
Proof. apply fold_left_proj; intros; try case_match; autorewrite with fr_tail; done. Qed.
#[export] Hint Rewrite close_handles1_tail : fr_tail.
Lemma close_handles1_cellsA l s : cellsA (fold_left close_handle1 l s) = cellsA s.
Proof. apply fold_left_proj; intros; try case_match; autorewrite with fr_cellsA; done. Qed.
#[export] Hint Rewrite close_handles1_cellsA : fr_cellsA.
Lemma close_handles1_ones l s : ones (fold_left close_handle1 l s) = ones s.
Proof. apply fold_left_proj; intros; try case_match; autorewrite with fr_ones; done. Qed.
#[export] Hint Rewrite close_handles1_ones : fr_ones.
Lemma close_handles1_bqueues l s : bqueues (fold_left close_handle1 l s) = bqueues s.
Proof. apply fold_left_proj; intros; try case_match; autorewrite with fr_bqueues; done. Qed.
#[export] Hint Rewrite close_handles1_bqueues : fr_bqueues.
Lemma close_handles1_lsts l s : lsts (fold_left close_handle1 l s) = lsts s.
Proof. apply fold_left_proj; intros; try case_match; autorewrite with fr_lsts; done. Qed.
#[export] Hint Rewrite close_handles1_lsts : fr_lsts.
Lemma close_handles1_addrs l s : addrs (fold_left close_handle1 l s) = addrs s.
Proof. apply fold_left_proj; intros; try case_match; autorewrite with fr_addrs; done. Qed.
#[export] Hint Rewrite close_handles1_addrs : fr_addrs.
Lemma close_handles1_hols l s : hols (fold_left close_handle1 l s) = hols s.
Proof. apply fold_left_proj; intros; try case_match; autorewrite with fr_hols; done. Qed.
#[export] Hint Rewrite close_handles1_hols : fr_hols.
Lemma close_handles1_sfs l s : sfs (fold_left close_handle1 l s) = sfs s.
Proof. apply fold_left_proj; intros; try case_match; autorewrite with fr_sfs; done. Qed.
#[export] Hint Rewrite close_handles1_sfs : fr_sfs.
Lemma close_handles1_rcvs l s : rcvs (fold_left close_handle1 l s) = rcvs s.
Proof. apply fold_left_proj; intros; try case_match; autorewrite with fr_rcvs; done. Qed.
#[export] Hint Rewrite close_handles1_rcvs : fr_rcvs.
Lemma close_handles1_jhs l s : jhs (fold_left close_handle1 l s) = jhs s.
Proof. apply fold_left_proj; intros; try case_match; autorewrite with fr_jhs; done. Qed.
#[export] Hint Rewrite close_handles1_jhs : fr_jhs.
Lemma close_handles1_thr l s : thr (fold_left close_handle1 l s) = thr s.
Proof. apply fold_left_proj; intros; try case_match; autorewrite with fr_thr; done. Qed.
#[export] Hint Rewrite close_handles1_thr : fr_thr.
Lemma close_handles1_nbm l s : nbm (fold_left close_handle1 l s) = nbm s.
Proof. apply fold_left_proj; intros; try case_match; autorewrite with fr_nbm; done. Qed.
#[export] Hint Rewrite close_handles1_nbm : fr_nbm.
Lemma close_handles1_nwk l s : nwk (fold_left close_handle1 l s) = nwk s.
Proof. apply fold_left_proj; intros; try case_match; autorewrite with fr_nwk; done. Qed.
#[export] Hint Rewrite close_handles1_nwk : fr_nwk.

Lemma close_handlesA_cap l s : cap (fold_left close_handleA l s) = cap s.
Proof. apply fold_left_proj; intros; try case_match; autorewrite with fr_cap; done. Qed.
#[export] Hint Rewrite close_handlesA_cap : fr_cap.
Lemma close_handlesA_txc l s : txc (fold_left close_handleA l s) = txc s.
Proof. apply fold_left_proj; intros; try case_match; autorewrite with fr_txc; done. Qed.
#[export] Hint Rewrite close_handlesA_txc : fr_txc.
Lemma close_handlesA_rxc l s : rxc (fold_left close_handleA l s) = rxc s.
Proof. apply fold_left_proj; intros; try case_match; autorewrite with fr_rxc; done. Qed.
#[export] Hint Rewrite close_handlesA_rxc : fr_rxc.
Lemma close_handlesA_uq l s : uq (fold_left close_handleA l s) = uq s.
Proof. apply fold_left_proj; intros; try case_match; autorewrite with fr_uq; done. Qed.
#[export] Hint Rewrite close_handlesA_uq : fr_uq.
Lemma close_handlesA_ws1 l s : ws1 (fold_left close_handleA l s) = ws1 s.
Proof. apply fold_left_proj; intros; try case_match; autorewrite with fr_ws1; done. Qed.
#[export] Hint Rewrite close_handlesA_ws1 : fr_ws1.
Lemma close_handlesA_wsA l s : wsA (fold_left close_handleA l s) = wsA s.
Proof. apply fold_left_proj; intros; try case_match; autorewrite with fr_wsA; done. Qed.
#[export] Hint Rewrite close_handlesA_wsA : fr_wsA.
Lemma close_handlesA_wrx l s : wrx (fold_left close_handleA l s) = wrx s.
Proof. apply fold_left_proj; intros; try case_match; autorewrite with fr_wrx; done. Qed.
#[export] Hint Rewrite close_handlesA_wrx : fr_wrx.
Lemma close_handlesA_bqs l s : bqs (fold_left close_handleA l s) = bqs s.
Proof. apply fold_left_proj; intros; try case_match; autorewrite with fr_bqs; done. Qed.
#[export] Hint Rewrite close_handlesA_bqs : fr_bqs.
Lemma close_handlesA_tail l s : tail (fold_left close_handleA l s) = tail s.
Proof. apply fold_left_proj; intros; try case_match; autorewrite with fr_tail; done. Qed.
#[export] Hint Rewrite close_handlesA_tail : fr_tail.
Lemma close_handlesA_cells1 l s : cells1 (fold_left close_handleA l s) = cells1 s.
Proof. apply fold_left_proj; intros; try case_match; autorewrite with fr_cells1; done. Qed.
#[export] Hint Rewrite close_handlesA_cells1 : fr_cells1.
Lemma close_handlesA_ones l s : ones (fold_left close_handleA l s) = ones s.
Proof. apply fold_left_proj; intros; try case_match; autorewrite with fr_ones; done. Qed.
#[export] Hint Rewrite close_handlesA_ones : fr_ones.
Lemma close_handlesA_bqueues l s : bqueues (fold_left close_handleA l s) = bqueues s.
Proof. apply fold_left_proj; intros; try case_match; autorewrite with fr_bqueues; done. Qed.
#[export] Hint Rewrite close_handlesA_bqueues : fr_bqueues.
Lemma close_handlesA_reps l s : reps (fold_left close_handleA l s) = reps s.
Proof. apply fold_left_proj; intros; try case_match; autorewrite with fr_reps; done. Qed.
#[export] Hint Rewrite close_handlesA_reps : fr_reps.
Lemma close_handlesA_lsts l s : lsts (fold_left close_handleA l s) = lsts s.
Proof. apply fold_left_proj; intros; try case_match; autorewrite with fr_lsts; done. Qed.
#[export] Hint Rewrite close_handlesA_lsts : fr_lsts.
Lemma close_handlesA_addrs l s : addrs (fold_left close_handleA l s) = addrs s.
Proof. apply fold_left_proj; intros; try case_match; autorewrite with fr_addrs; done. Qed.
#[export] Hint Rewrite close_handlesA_addrs : fr_addrs.
Lemma close_handlesA_hols l s : hols (fold_left close_handleA l s) = hols s.
Proof. apply fold_left_proj; intros; try case_match; autorewrite with fr_hols; done. Qed.
#[export] Hint Rewrite close_handlesA_hols : fr_hols.
Lemma close_handlesA_sfs l s : sfs (fold_left close_handleA l s) = sfs s.
Proof. apply fold_left_proj; intros; try case_match; autorewrite with fr_sfs; done. Qed.
#[export] Hint Rewrite close_handlesA_sfs : fr_sfs.
Lemma close_handlesA_rcvs l s : rcvs (fold_left close_handleA l s) = rcvs s.
Proof. apply fold_left_proj; intros; try case_match; autorewrite with fr_rcvs; done. Qed.
#[export] Hint Rewrite close_handlesA_rcvs : fr_rcvs.
Lemma close_handlesA_jhs l s : jhs (fold_left close_handleA l s) = jhs s.
Proof. apply fold_left_proj; intros; try case_match; autorewrite with fr_jhs; done. Qed.
#[export] Hint Rewrite close_handlesA_jhs : fr_jhs.
Lemma close_handlesA_thr l s : thr (fold_left close_handleA l s) = thr s.
Proof. apply fold_left_proj; intros; try case_match; autorewrite with fr_thr; done. Qed.
#[export] Hint Rewrite close_handlesA_thr : fr_thr.
Lemma close_handlesA_nbm l s : nbm (fold_left close_handleA l s) = nbm s.
Proof. apply fold_left_proj; intros; try case_match; autorewrite with fr_nbm; done. Qed.
#[export] Hint Rewrite close_handlesA_nbm : fr_nbm.
Lemma close_handlesA_nwk l s : nwk (fold_left close_handleA l s) = nwk s.
Proof. apply fold_left_proj; intros; try case_match; autorewrite with fr_nwk; done. Qed.
#[export] Hint Rewrite close_handlesA_nwk : fr_nwk.
Lemma close_handlesA_log l s : log (fold_left close_handleA l s) = log s.
Proof. apply fold_left_proj; intros; try case_match; autorewrite with fr_log; done. Qed.
#[export] Hint Rewrite close_handlesA_log : fr_log.

Lemma close_one_cap s c : cap (close_one s c) = cap s.
Proof. unfold close_one; repeat (case_match; simplify_eq/=); simpl; autorewrite with fr_cap; simpl; autorewrite with fr_cap; done. Qed.
#[export] Hint Rewrite close_one_cap : fr_cap.
Lemma close_one_txc s c : txc (close_one s c) = txc s.
Proof. unfold close_one; repeat (case_match; simplify_eq/=); simpl; autorewrite with fr_txc; simpl; autorewrite with fr_txc; done. Qed.
#[export] Hint Rewrite close_one_txc : fr_txc.
Lemma close_one_rxc s c : rxc (close_one s c) = rxc s.
Proof. unfold close_one; repeat (case_match; simplify_eq/=); simpl; autorewrite with fr_rxc; simpl; autorewrite with fr_rxc; done. Qed.
#[export] Hint Rewrite close_one_rxc : fr_rxc.
Lemma close_one_uq s c : uq (close_one s c) = uq s.
Proof. unfold close_one; repeat (case_match; simplify_eq/=); simpl; autorewrite with fr_uq; simpl; autorewrite with fr_uq; done. Qed.
#[export] Hint Rewrite close_one_uq : fr_uq.
Lemma close_one_ws1 s c : ws1 (close_one s c) = ws1 s.
Proof. unfold close_one; repeat (case_match; simplify_eq/=); simpl; autorewrite with fr_ws1; simpl; autorewrite with fr_ws1; done. Qed.
#[export] Hint Rewrite close_one_ws1 : fr_ws1.
Lemma close_one_wsA s c : wsA (close_one s c) = wsA s.
Proof. unfold close_one; repeat (case_match; simplify_eq/=); simpl; autorewrite with fr_wsA; simpl; autorewrite with fr_wsA; done. Qed.
#[export] Hint Rewrite close_one_wsA : fr_wsA.
Lemma close_one_wrx s c : wrx (close_one s c) = wrx s.
Proof. unfold close_one; repeat (case_match; simplify_eq/=); simpl; autorewrite with fr_wrx; simpl; autorewrite with fr_wrx; done. Qed.
#[export] Hint Rewrite close_one_wrx : fr_wrx.
Lemma close_one_bqs s c : bqs (close_one s c) = bqs s.
Proof. unfold close_one; repeat (case_match; simplify_eq/=); simpl; autorewrite with fr_bqs; simpl; autorewrite with fr_bqs; done. Qed.
#[export] Hint Rewrite close_one_bqs : fr_bqs.
Lemma close_one_tail s c : tail (close_one s c) = tail s.
Proof. unfold close_one; repeat (case_match; simplify_eq/=); simpl; autorewrite with fr_tail; simpl; autorewrite with fr_tail; done. Qed.
#[export] Hint Rewrite close_one_tail : fr_tail.
Lemma close_one_cells1 s c : cells1 (close_one s c) = cells1 s.
Proof. unfold close_one; repeat (case_match; simplify_eq/=); simpl; autorewrite with fr_cells1; simpl; autorewrite with fr_cells1; done. Qed.
#[export] Hint Rewrite close_one_cells1 : fr_cells1.
Lemma close_one_cellsA s c : cellsA (close_one s c) = cellsA s.
Proof. unfold close_one; repeat (case_match; simplify_eq/=); simpl; autorewrite with fr_cellsA; simpl; autorewrite with fr_cellsA; done. Qed.
#[export] Hint Rewrite close_one_cellsA : fr_cellsA.
Lemma close_one_bqueues s c : bqueues (close_one s c) = bqueues s.
Proof. unfold close_one; repeat (case_match; simplify_eq/=); simpl; autorewrite with fr_bqueues; simpl; autorewrite with fr_bqueues; done. Qed.
#[export] Hint Rewrite close_one_bqueues : fr_bqueues.
Lemma close_one_reps s c : reps (close_one s c) = reps s.
Proof. unfold close_one; repeat (case_match; simplify_eq/=); simpl; autorewrite with fr_reps; simpl; autorewrite with fr_reps; done. Qed.
#[export] Hint Rewrite close_one_reps : fr_reps.
Lemma close_one_lsts s c : lsts (close_one s c) = lsts s.
Proof. unfold close_one; repeat (case_match; simplify_eq/=); simpl; autorewrite with fr_lsts; simpl; autorewrite with fr_lsts; done. Qed.
#[export] Hint Rewrite close_one_lsts : fr_lsts.
Lemma close_one_addrs s c : addrs (close_one s c) = addrs s.
Proof. unfold close_one; repeat (case_match; simplify_eq/=); simpl; autorewrite with fr_addrs; simpl; autorewrite with fr_addrs; done. Qed.
#[export] Hint Rewrite close_one_addrs : fr_addrs.
Lemma close_one_hols s c : hols (close_one s c) = hols s.
Proof. unfold close_one; repeat (case_match; simplify_eq/=); simpl; autorewrite with fr_hols; simpl; autorewrite with fr_hols; done. Qed.
#[export] Hint Rewrite close_one_hols : fr_hols.
Lemma close_one_sfs s c : sfs (close_one s c) = sfs s.
Proof. unfold close_one; repeat (case_match; simplify_eq/=); simpl; autorewrite with fr_sfs; simpl; autorewrite with fr_sfs; done. Qed.
#[export] Hint Rewrite close_one_sfs : fr_sfs.
Lemma close_one_rcvs s c : rcvs (close_one s c) = rcvs s.
Proof. unfold close_one; repeat (case_match; simplify_eq/=); simpl; autorewrite with fr_rcvs; simpl; autorewrite with fr_rcvs; done. Qed.
#[export] Hint Rewrite close_one_rcvs : fr_rcvs.
Lemma close_one_jhs s c : jhs (close_one s c) = jhs s.
Proof. unfold close_one; repeat (case_match; simplify_eq/=); simpl; autorewrite with fr_jhs; simpl; autorewrite with fr_jhs; done. Qed.
#[export] Hint Rewrite close_one_jhs : fr_jhs.
Lemma close_one_thr s c : thr (close_one s c) = thr s.
Proof. unfold close_one; repeat (case_match; simplify_eq/=); simpl; autorewrite with fr_thr; simpl; autorewrite with fr_thr; done. Qed.
#[export] Hint Rewrite close_one_thr : fr_thr.
Lemma close_one_nbm s c : nbm (close_one s c) = nbm s.
Proof. unfold close_one; repeat (case_match; simplify_eq/=); simpl; autorewrite with fr_nbm; simpl; autorewrite with fr_nbm; done. Qed.
#[export] Hint Rewrite close_one_nbm : fr_nbm.
Lemma close_one_nwk s c : nwk (close_one s c) = nwk s.
Proof. unfold close_one; repeat (case_match; simplify_eq/=); simpl; autorewrite with fr_nwk; simpl; autorewrite with fr_nwk; done. Qed.
#[export] Hint Rewrite close_one_nwk : fr_nwk.
Lemma close_one_log s c : log (close_one s c) = log s.
Proof. unfold close_one; repeat (case_match; simplify_eq/=); simpl; autorewrite with fr_log; simpl; autorewrite with fr_log; done. Qed.
#[export] Hint Rewrite close_one_log : fr_log.

Lemma close_ones_cap l s : cap (fold_left close_one l s) = cap s.
Proof. apply fold_left_proj; intros; try case_match; autorewrite with fr_cap; done. Qed.
#[export] Hint Rewrite close_ones_cap : fr_cap.
Lemma close_ones_txc l s : txc (fold_left close_one l s) = txc s.
Proof. apply fold_left_proj; intros; try case_match; autorewrite with fr_txc; done. Qed.
#[export] Hint Rewrite close_ones_txc : fr_txc.
Lemma close_ones_rxc l s : rxc (fold_left close_one l s) = rxc s.
Proof. apply fold_left_proj; intros; try case_match; autorewrite with fr_rxc; done. Qed.
#[export] Hint Rewrite close_ones_rxc : fr_rxc.
Lemma close_ones_uq l s : uq (fold_left close_one l s) = uq s.
Proof. apply fold_left_proj; intros; try case_match; autorewrite with fr_uq; done. Qed.
#[export] Hint Rewrite close_ones_uq : fr_uq.
Lemma close_ones_ws1 l s : ws1 (fold_left close_one l s) = ws1 s.
Proof. apply fold_left_proj; intros; try case_match; autorewrite with fr_ws1; done. Qed.
#[export] Hint Rewrite close_ones_ws1 : fr_ws1.
Lemma close_ones_wsA l s : wsA (fold_left close_one l s) = wsA s.
Proof. apply fold_left_proj; intros; try case_match; autorewrite with fr_wsA; done. Qed.
#[export] Hint Rewrite close_ones_wsA : fr_wsA.
Lemma close_ones_wrx l s : wrx (fold_left close_one l s) = wrx s.
Proof. apply fold_left_proj; intros; try case_match; autorewrite with fr_wrx; done. Qed.
#[export] Hint Rewrite close_ones_wrx : fr_wrx.
Lemma close_ones_bqs l s : bqs (fold_left close_one l s) = bqs s.
Proof. apply fold_left_proj; intros; try case_match; autorewrite with fr_bqs; done. Qed.
#[export] Hint Rewrite close_ones_bqs : fr_bqs.
Lemma close_ones_tail l s : tail (fold_left close_one l s) = tail s.
Proof. apply fold_left_proj; intros; try case_match; autorewrite with fr_tail; done. Qed.
#[export] Hint Rewrite close_ones_tail : fr_tail.
Lemma close_ones_cells1 l s : cells1 (fold_left close_one l s) = cells1 s.
Proof. apply fold_left_proj; intros; try case_match; autorewrite with fr_cells1; done. Qed.
#[export] Hint Rewrite close_ones_cells1 : fr_cells1.
Lemma close_ones_cellsA l s : cellsA (fold_left close_one l s) = cellsA s.
Proof. apply fold_left_proj; intros; try case_match; autorewrite with fr_cellsA; done. Qed.
#[export] Hint Rewrite close_ones_cellsA : fr_cellsA.
Lemma close_ones_bqueues l s : bqueues (fold_left close_one l s) = bqueues s.
Proof. apply fold_left_proj; intros; try case_match; autorewrite with fr_bqueues; done. Qed.
#[export] Hint Rewrite close_ones_bqueues : fr_bqueues.
Lemma close_ones_reps l s : reps (fold_left close_one l s) = reps s.
Proof. apply fold_left_proj; intros; try case_match; autorewrite with fr_reps; done. Qed.
#[export] Hint Rewrite close_ones_reps : fr_reps.
Lemma close_ones_lsts l s : lsts (fold_left close_one l s) = lsts s.
Proof. apply fold_left_proj; intros; try case_match; autorewrite with fr_lsts; done. Qed.
#[export] Hint Rewrite close_ones_lsts : fr_lsts.
Lemma close_ones_addrs l s : addrs (fold_left close_one l s) = addrs s.
Proof. apply fold_left_proj; intros; try case_match; autorewrite with fr_addrs; done. Qed.
#[export] Hint Rewrite close_ones_addrs : fr_addrs.
Lemma close_ones_hols l s : hols (fold_left close_one l s) = hols s.
Proof. apply fold_left_proj; intros; try case_match; autorewrite with fr_hols; done. Qed.
#[export] Hint Rewrite close_ones_hols : fr_hols.
Lemma close_ones_sfs l s : sfs (fold_left close_one l s) = sfs s.
Proof. apply fold_left_proj; intros; try case_match; autorewrite with fr_sfs; done. Qed.
#[export] Hint Rewrite close_ones_sfs : fr_sfs.
Lemma close_ones_rcvs l s : rcvs (fold_left close_one l s) = rcvs s.
Proof. apply fold_left_proj; intros; try case_match; autorewrite with fr_rcvs; done. Qed.
#[export] Hint Rewrite close_ones_rcvs : fr_rcvs.
Lemma close_ones_jhs l s : jhs (fold_left close_one l s) = jhs s.
Proof. apply fold_left_proj; intros; try case_match; autorewrite with fr_jhs; done. Qed.
#[export] Hint Rewrite close_ones_jhs : fr_jhs.
Lemma close_ones_thr l s : thr (fold_left close_one l s) = thr s.
Proof. apply fold_left_proj; intros; try case_match; autorewrite with fr_thr; done. Qed.
#[export] Hint Rewrite close_ones_thr : fr_thr.
Lemma close_ones_nbm l s : nbm (fold_left close_one l s) = nbm s.
Proof. apply fold_left_proj; intros; try case_match; autorewrite with fr_nbm; done. Qed.
#[export] Hint Rewrite close_ones_nbm : fr_nbm.
Lemma close_ones_nwk l s : nwk (fold_left close_one l s) = nwk s.
Proof. apply fold_left_proj; intros; try case_match; autorewrite with fr_nwk; done. Qed.
#[export] Hint Rewrite close_ones_nwk : fr_nwk.
Lemma close_ones_log l s : log (fold_left close_one l s) = log s.
Proof. apply fold_left_proj; intros; try case_match; autorewrite with fr_log; done. Qed.
#[export] Hint Rewrite close_ones_log : fr_log.

Lemma one_send_cap o c s : cap (fst (one_send o c s)) = cap s.
Proof. unfold one_send; repeat (case_match; simplify_eq/=); simpl; autorewrite with fr_cap; simpl; autorewrite with fr_cap; done. Qed.
#[export] Hint Rewrite one_send_cap : fr_cap.
Lemma one_send_txc o c s : txc (fst (one_send o c s)) = txc s.
Proof. unfold one_send; repeat (case_match; simplify_eq/=); simpl; autorewrite with fr_txc; simpl; autorewrite with fr_txc; done. Qed.
#[export] Hint Rewrite one_send_txc : fr_txc.
Lemma one_send_rxc o c s : rxc (fst (one_send o c s)) = rxc s.
Proof. unfold one_send; repeat (case_match; simplify_eq/=); simpl; autorewrite with fr_rxc; simpl; autorewrite with fr_rxc; done. Qed.
#[export] Hint Rewrite one_send_rxc : fr_rxc.
Lemma one_send_uq o c s : uq (fst (one_send o c s)) = uq s.
Proof. unfold one_send; repeat (case_match; simplify_eq/=); simpl; autorewrite with fr_uq; simpl; autorewrite with fr_uq; done. Qed.
#[export] Hint Rewrite one_send_uq : fr_uq.
Lemma one_send_ws1 o c s : ws1 (fst (one_send o c s)) = ws1 s.
Proof. unfold one_send; repeat (case_match; simplify_eq/=); simpl; autorewrite with fr_ws1; simpl; autorewrite with fr_ws1; done. Qed.
#[export] Hint Rewrite one_send_ws1 : fr_ws1.
Lemma one_send_wsA o c s : wsA (fst (one_send o c s)) = wsA s.
Proof. unfold one_send; repeat (case_match; simplify_eq/=); simpl; autorewrite with fr_wsA; simpl; autorewrite with fr_wsA; done. Qed.
#[export] Hint Rewrite one_send_wsA : fr_wsA.
Lemma one_send_wrx o c s : wrx (fst (one_send o c s)) = wrx s.
Proof. unfold one_send; repeat (case_match; simplify_eq/=); simpl; autorewrite with fr_wrx; simpl; autorewrite with fr_wrx; done. Qed.
#[export] Hint Rewrite one_send_wrx : fr_wrx.
Lemma one_send_bqs o c s : bqs (fst (one_send o c s)) = bqs s.
Proof. unfold one_send; repeat (case_match; simplify_eq/=); simpl; autorewrite with fr_bqs; simpl; autorewrite with fr_bqs; done. Qed.
#[export] Hint Rewrite one_send_bqs : fr_bqs.
Lemma one_send_tail o c s : tail (fst (one_send o c s)) = tail s.
Proof. unfold one_send; repeat (case_match; simplify_eq/=); simpl; autorewrite with fr_tail; simpl; autorewrite with fr_tail; done. Qed.
#[export] Hint Rewrite one_send_tail : fr_tail.
Lemma one_send_cells1 o c s : cells1 (fst (one_send o c s)) = cells1 s.
Proof. unfold one_send; repeat (case_match; simplify_eq/=); simpl; autorewrite with fr_cells1; simpl; autorewrite with fr_cells1; done. Qed.
#[export] Hint Rewrite one_send_cells1 : fr_cells1.
Lemma one_send_cellsA o c s : cellsA (fst (one_send o c s)) = cellsA s.
Proof. unfold one_send; repeat (case_match; simplify_eq/=); simpl; autorewrite with fr_cellsA; simpl; autorewrite with fr_cellsA; done. Qed.
#[export] Hint Rewrite one_send_cellsA : fr_cellsA.
Lemma one_send_bqueues o c s : bqueues (fst (one_send o c s)) = bqueues s.
Proof. unfold one_send; repeat (case_match; simplify_eq/=); simpl; autorewrite with fr_bqueues; simpl; autorewrite with fr_bqueues; done. Qed.
#[export] Hint Rewrite one_send_bqueues : fr_bqueues.
Lemma one_send_reps o c s : reps (fst (one_send o c s)) = reps s.
Proof. unfold one_send; repeat (case_match; simplify_eq/=); simpl; autorewrite with fr_reps; simpl; autorewrite with fr_reps; done. Qed.
#[export] Hint Rewrite one_send_reps : fr_reps.
Lemma one_send_lsts o c s : lsts (fst (one_send o c s)) = lsts s.
Proof. unfold one_send; repeat (case_match; simplify_eq/=); simpl; autorewrite with fr_lsts; simpl; autorewrite with fr_lsts; done. Qed.
#[export] Hint Rewrite one_send_lsts : fr_lsts.
Lemma one_send_addrs o c s : addrs (fst (one_send o c s)) = addrs s.
Proof. unfold one_send; repeat (case_match; simplify_eq/=); simpl; autorewrite with fr_addrs; simpl; autorewrite with fr_addrs; done. Qed.
#[export] Hint Rewrite one_send_addrs : fr_addrs.
Lemma one_send_hols o c s : hols (fst (one_send o c s)) = hols s.
Proof. unfold one_send; repeat (case_match; simplify_eq/=); simpl; autorewrite with fr_hols; simpl; autorewrite with fr_hols; done. Qed.
#[export] Hint Rewrite one_send_hols : fr_hols.
Lemma one_send_sfs o c s : sfs (fst (one_send o c s)) = sfs s.
Proof. unfold one_send; repeat (case_match; simplify_eq/=); simpl; autorewrite with fr_sfs; simpl; autorewrite with fr_sfs; done. Qed.
#[export] Hint Rewrite one_send_sfs : fr_sfs.
Lemma one_send_rcvs o c s : rcvs (fst (one_send o c s)) = rcvs s.
Proof. unfold one_send; repeat (case_match; simplify_eq/=); simpl; autorewrite with fr_rcvs; simpl; autorewrite with fr_rcvs; done. Qed.
#[export] Hint Rewrite one_send_rcvs : fr_rcvs.
Lemma one_send_jhs o c s : jhs (fst (one_send o c s)) = jhs s.
Proof. unfold one_send; repeat (case_match; simplify_eq/=); simpl; autorewrite with fr_jhs; simpl; autorewrite with fr_jhs; done. Qed.
#[export] Hint Rewrite one_send_jhs : fr_jhs.
Lemma one_send_thr o c s : thr (fst (one_send o c s)) = thr s.
Proof. unfold one_send; repeat (case_match; simplify_eq/=); simpl; autorewrite with fr_thr; simpl; autorewrite with fr_thr; done. Qed.
#[export] Hint Rewrite one_send_thr : fr_thr.
Lemma one_send_nbm o c s : nbm (fst (one_send o c s)) = nbm s.
Proof. unfold one_send; repeat (case_match; simplify_eq/=); simpl; autorewrite with fr_nbm; simpl; autorewrite with fr_nbm; done. Qed.
#[export] Hint Rewrite one_send_nbm : fr_nbm.
Lemma one_send_nwk o c s : nwk (fst (one_send o c s)) = nwk s.
Proof. unfold one_send; repeat (case_match; simplify_eq/=); simpl; autorewrite with fr_nwk; simpl; autorewrite with fr_nwk; done. Qed.
#[export] Hint Rewrite one_send_nwk : fr_nwk.
Lemma one_send_log o c s : log (fst (one_send o c s)) = log s.
Proof. unfold one_send; repeat (case_match; simplify_eq/=); simpl; autorewrite with fr_log; simpl; autorewrite with fr_log; done. Qed.
#[export] Hint Rewrite one_send_log : fr_log.

Lemma one_sends_cap l c s : cap (fold_left (λ s o, fst (one_send o c s)) l s) = cap s.
Proof. apply fold_left_proj; intros; try case_match; autorewrite with fr_cap; done. Qed.
#[export] Hint Rewrite one_sends_cap : fr_cap.
Lemma one_sends_txc l c s : txc (fold_left (λ s o, fst (one_send o c s)) l s) = txc s.
Proof. apply fold_left_proj; intros; try case_match; autorewrite with fr_txc; done. Qed.
#[export] Hint Rewrite one_sends_txc : fr_txc.
Lemma one_sends_rxc l c s : rxc (fold_left (λ s o, fst (one_send o c s)) l s) = rxc s.
Proof. apply fold_left_proj; intros; try case_match; autorewrite with fr_rxc; done. Qed.
#[export] Hint Rewrite one_sends_rxc : fr_rxc.
Lemma one_sends_uq l c s : uq (fold_left (λ s o, fst (one_send o c s)) l s) = uq s.
Proof. apply fold_left_proj; intros; try case_match; autorewrite with fr_uq; done. Qed.
#[export] Hint Rewrite one_sends_uq : fr_uq.
Lemma one_sends_ws1 l c s : ws1 (fold_left (λ s o, fst (one_send o c s)) l s) = ws1 s.
Proof. apply fold_left_proj; intros; try case_match; autorewrite with fr_ws1; done. Qed.
#[export] Hint Rewrite one_sends_ws1 : fr_ws1.
Lemma one_sends_wsA l c s : wsA (fold_left (λ s o, fst (one_send o c s)) l s) = wsA s.
Proof. apply fold_left_proj; intros; try case_match; autorewrite with fr_wsA; done. Qed.
#[export] Hint Rewrite one_sends_wsA : fr_wsA.
Lemma one_sends_wrx l c s : wrx (fold_left (λ s o, fst (one_send o c s)) l s) = wrx s.
Proof. apply fold_left_proj; intros; try case_match; autorewrite with fr_wrx; done. Qed.
#[export] Hint Rewrite one_sends_wrx : fr_wrx.
Lemma one_sends_bqs l c s : bqs (fold_left (λ s o, fst (one_send o c s)) l s) = bqs s.
Proof. apply fold_left_proj; intros; try case_match; autorewrite with fr_bqs; done. Qed.
#[export] Hint Rewrite one_sends_bqs : fr_bqs.
Lemma one_sends_tail l c s : tail (fold_left (λ s o, fst (one_send o c s)) l s) = tail s.
Proof. apply fold_left_proj; intros; try case_match; autorewrite with fr_tail; done. Qed.
#[export] Hint Rewrite one_sends_tail : fr_tail.
Lemma one_sends_cells1 l c s : cells1 (fold_left (λ s o, fst (one_send o c s)) l s) = cells1 s.
Proof. apply fold_left_proj; intros; try case_match; autorewrite with fr_cells1; done. Qed.
#[export] Hint Rewrite one_sends_cells1 : fr_cells1.
Lemma one_sends_cellsA l c s : cellsA (fold_left (λ s o, fst (one_send o c s)) l s) = cellsA s.
Proof. apply fold_left_proj; intros; try case_match; autorewrite with fr_cellsA; done. Qed.
#[export] Hint Rewrite one_sends_cellsA : fr_cellsA.
Lemma one_sends_bqueues l c s : bqueues (fold_left (λ s o, fst (one_send o c s)) l s) = bqueues s.
Proof. apply fold_left_proj; intros; try case_match; autorewrite with fr_bqueues; done. Qed.
#[export] Hint Rewrite one_sends_bqueues : fr_bqueues.
Lemma one_sends_reps l c s : reps (fold_left (λ s o, fst (one_send o c s)) l s) = reps s.
Proof. apply fold_left_proj; intros; try case_match; autorewrite with fr_reps; done. Qed.
#[export] Hint Rewrite one_sends_reps : fr_reps.
Lemma one_sends_lsts l c s : lsts (fold_left (λ s o, fst (one_send o c s)) l s) = lsts s.
Proof. apply fold_left_proj; intros; try case_match; autorewrite with fr_lsts; done. Qed.
#[export] Hint Rewrite one_sends_lsts : fr_lsts.
Lemma one_sends_addrs l c s : addrs (fold_left (λ s o, fst (one_send o c s)) l s) = addrs s.
Proof. apply fold_left_proj; intros; try case_match; autorewrite with fr_addrs; done. Qed.
#[export] Hint Rewrite one_sends_addrs : fr_addrs.
Lemma one_sends_hols l c s : hols (fold_left (λ s o, fst (one_send o c s)) l s) = hols s.
Proof. apply fold_left_proj; intros; try case_match; autorewrite with fr_hols; done. Qed.
#[export] Hint Rewrite one_sends_hols : fr_hols.
Lemma one_sends_sfs l c s : sfs (fold_left (λ s o, fst (one_send o c s)) l s) = sfs s.
Proof. apply fold_left_proj; intros; try case_match; autorewrite with fr_sfs; done. Qed.
#[export] Hint Rewrite one_sends_sfs : fr_sfs.
Lemma one_sends_rcvs l c s : rcvs (fold_left (λ s o, fst (one_send o c s)) l s) = rcvs s.
Proof. apply fold_left_proj; intros; try case_match; autorewrite with fr_rcvs; done. Qed.
#[export] Hint Rewrite one_sends_rcvs : fr_rcvs.
Lemma one_sends_jhs l c s : jhs (fold_left (λ s o, fst (one_send o c s)) l s) = jhs s.
Proof. apply fold_left_proj; intros; try case_match; autorewrite with fr_jhs; done. Qed.
#[export] Hint Rewrite one_sends_jhs : fr_jhs.
Lemma one_sends_thr l c s : thr (fold_left (λ s o, fst (one_send o c s)) l s) = thr s.
Proof. apply fold_left_proj; intros; try case_match; autorewrite with fr_thr; done. Qed.
#[export] Hint Rewrite one_sends_thr : fr_thr.
Lemma one_sends_nbm l c s : nbm (fold_left (λ s o, fst (one_send o c s)) l s) = nbm s.
Proof. apply fold_left_proj; intros; try case_match; autorewrite with fr_nbm; done. Qed.
#[export] Hint Rewrite one_sends_nbm : fr_nbm.
Lemma one_sends_nwk l c s : nwk (fold_left (λ s o, fst (one_send o c s)) l s) = nwk s.
Proof. apply fold_left_proj; intros; try case_match; autorewrite with fr_nwk; done. Qed.
#[export] Hint Rewrite one_sends_nwk : fr_nwk.
Lemma one_sends_log l c s : log (fold_left (λ s o, fst (one_send o c s)) l s) = log s.
Proof. apply fold_left_proj; intros; try case_match; autorewrite with fr_log; done. Qed.
#[export] Hint Rewrite one_sends_log : fr_log.

Lemma fulfill_cap ws m s : cap (fst (fulfill ws m s)) = cap s.
Proof. revert s; induction ws as [|o ws IH]; intros s; [done|]; simpl; pose proof (one_send_cap o (CNewMsg m) s) as H1; destruct (one_send o (CNewMsg m) s) as [s1 []]; simpl in *; [done|]; rewrite IH; done. Qed.
#[export] Hint Rewrite fulfill_cap : fr_cap.
Lemma fulfill_txc ws m s : txc (fst (fulfill ws m s)) = txc s.
Proof. revert s; induction ws as [|o ws IH]; intros s; [done|]; simpl; pose proof (one_send_txc o (CNewMsg m) s) as H1; destruct (one_send o (CNewMsg m) s) as [s1 []]; simpl in *; [done|]; rewrite IH; done. Qed.
#[export] Hint Rewrite fulfill_txc : fr_txc.
Lemma fulfill_rxc ws m s : rxc (fst (fulfill ws m s)) = rxc s.
Proof. revert s; induction ws as [|o ws IH]; intros s; [done|]; simpl; pose proof (one_send_rxc o (CNewMsg m) s) as H1; destruct (one_send o (CNewMsg m) s) as [s1 []]; simpl in *; [done|]; rewrite IH; done. Qed.
#[export] Hint Rewrite fulfill_rxc : fr_rxc.
Lemma fulfill_uq ws m s : uq (fst (fulfill ws m s)) = uq s.
Proof. revert s; induction ws as [|o ws IH]; intros s; [done|]; simpl; pose proof (one_send_uq o (CNewMsg m) s) as H1; destruct (one_send o (CNewMsg m) s) as [s1 []]; simpl in *; [done|]; rewrite IH; done. Qed.
#[export] Hint Rewrite fulfill_uq : fr_uq.
Lemma fulfill_ws1 ws m s : ws1 (fst (fulfill ws m s)) = ws1 s.
Proof. revert s; induction ws as [|o ws IH]; intros s; [done|]; simpl; pose proof (one_send_ws1 o (CNewMsg m) s) as H1; destruct (one_send o (CNewMsg m) s) as [s1 []]; simpl in *; [done|]; rewrite IH; done. Qed.
#[export] Hint Rewrite fulfill_ws1 : fr_ws1.
Lemma fulfill_wsA ws m s : wsA (fst (fulfill ws m s)) = wsA s.
Proof. revert s; induction ws as [|o ws IH]; intros s; [done|]; simpl; pose proof (one_send_wsA o (CNewMsg m) s) as H1; destruct (one_send o (CNewMsg m) s) as [s1 []]; simpl in *; [done|]; rewrite IH; done. Qed.
#[export] Hint Rewrite fulfill_wsA : fr_wsA.
Lemma fulfill_bqs ws m s : bqs (fst (fulfill ws m s)) = bqs s.
Proof. revert s; induction ws as [|o ws IH]; intros s; [done|]; simpl; pose proof (one_send_bqs o (CNewMsg m) s) as H1; destruct (one_send o (CNewMsg m) s) as [s1 []]; simpl in *; [done|]; rewrite IH; done. Qed.
#[export] Hint Rewrite fulfill_bqs : fr_bqs.
Lemma fulfill_tail ws m s : tail (fst (fulfill ws m s)) = tail s.
Proof. revert s; induction ws as [|o ws IH]; intros s; [done|]; simpl; pose proof (one_send_tail o (CNewMsg m) s) as H1; destruct (one_send o (CNewMsg m) s) as [s1 []]; simpl in *; [done|]; rewrite IH; done. Qed.
#[export] Hint Rewrite fulfill_tail : fr_tail.
Lemma fulfill_cells1 ws m s : cells1 (fst (fulfill ws m s)) = cells1 s.
Proof. revert s; induction ws as [|o ws IH]; intros s; [done|]; simpl; pose proof (one_send_cells1 o (CNewMsg m) s) as H1; destruct (one_send o (CNewMsg m) s) as [s1 []]; simpl in *; [done|]; rewrite IH; done. Qed.
#[export] Hint Rewrite fulfill_cells1 : fr_cells1.
Lemma fulfill_cellsA ws m s : cellsA (fst (fulfill ws m s)) = cellsA s.
Proof. revert s; induction ws as [|o ws IH]; intros s; [done|]; simpl; pose proof (one_send_cellsA o (CNewMsg m) s) as H1; destruct (one_send o (CNewMsg m) s) as [s1 []]; simpl in *; [done|]; rewrite IH; done. Qed.
#[export] Hint Rewrite fulfill_cellsA : fr_cellsA.
Lemma fulfill_bqueues ws m s : bqueues (fst (fulfill ws m s)) = bqueues s.
Proof. revert s; induction ws as [|o ws IH]; intros s; [done|]; simpl; pose proof (one_send_bqueues o (CNewMsg m) s) as H1; destruct (one_send o (CNewMsg m) s) as [s1 []]; simpl in *; [done|]; rewrite IH; done. Qed.
#[export] Hint Rewrite fulfill_bqueues : fr_bqueues.
Lemma fulfill_reps ws m s : reps (fst (fulfill ws m s)) = reps s.
Proof. revert s; induction ws as [|o ws IH]; intros s; [done|]; simpl; pose proof (one_send_reps o (CNewMsg m) s) as H1; destruct (one_send o (CNewMsg m) s) as [s1 []]; simpl in *; [done|]; rewrite IH; done. Qed.
#[export] Hint Rewrite fulfill_reps : fr_reps.
Lemma fulfill_lsts ws m s : lsts (fst (fulfill ws m s)) = lsts s.
Proof. revert s; induction ws as [|o ws IH]; intros s; [done|]; simpl; pose proof (one_send_lsts o (CNewMsg m) s) as H1; destruct (one_send o (CNewMsg m) s) as [s1 []]; simpl in *; [done|]; rewrite IH; done. Qed.
#[export] Hint Rewrite fulfill_lsts : fr_lsts.
Lemma fulfill_addrs ws m s : addrs (fst (fulfill ws m s)) = addrs s.
Proof. revert s; induction ws as [|o ws IH]; intros s; [done|]; simpl; pose proof (one_send_addrs o (CNewMsg m) s) as H1; destruct (one_send o (CNewMsg m) s) as [s1 []]; simpl in *; [done|]; rewrite IH; done. Qed.
#[export] Hint Rewrite fulfill_addrs : fr_addrs.
Lemma fulfill_hols ws m s : hols (fst (fulfill ws m s)) = hols s.
Proof. revert s; induction ws as [|o ws IH]; intros s; [done|]; simpl; pose proof (one_send_hols o (CNewMsg m) s) as H1; destruct (one_send o (CNewMsg m) s) as [s1 []]; simpl in *; [done|]; rewrite IH; done. Qed.
#[export] Hint Rewrite fulfill_hols : fr_hols.
Lemma fulfill_sfs ws m s : sfs (fst (fulfill ws m s)) = sfs s.
Proof. revert s; induction ws as [|o ws IH]; intros s; [done|]; simpl; pose proof (one_send_sfs o (CNewMsg m) s) as H1; destruct (one_send o (CNewMsg m) s) as [s1 []]; simpl in *; [done|]; rewrite IH; done. Qed.
#[export] Hint Rewrite fulfill_sfs : fr_sfs.
Lemma fulfill_rcvs ws m s : rcvs (fst (fulfill ws m s)) = rcvs s.
Proof. revert s; induction ws as [|o ws IH]; intros s; [done|]; simpl; pose proof (one_send_rcvs o (CNewMsg m) s) as H1; destruct (one_send o (CNewMsg m) s) as [s1 []]; simpl in *; [done|]; rewrite IH; done. Qed.
#[export] Hint Rewrite fulfill_rcvs : fr_rcvs.
Lemma fulfill_jhs ws m s : jhs (fst (fulfill ws m s)) = jhs s.
Proof. revert s; induction ws as [|o ws IH]; intros s; [done|]; simpl; pose proof (one_send_jhs o (CNewMsg m) s) as H1; destruct (one_send o (CNewMsg m) s) as [s1 []]; simpl in *; [done|]; rewrite IH; done. Qed.
#[export] Hint Rewrite fulfill_jhs : fr_jhs.
Lemma fulfill_thr ws m s : thr (fst (fulfill ws m s)) = thr s.
Proof. revert s; induction ws as [|o ws IH]; intros s; [done|]; simpl; pose proof (one_send_thr o (CNewMsg m) s) as H1; destruct (one_send o (CNewMsg m) s) as [s1 []]; simpl in *; [done|]; rewrite IH; done. Qed.
#[export] Hint Rewrite fulfill_thr : fr_thr.
Lemma fulfill_nbm ws m s : nbm (fst (fulfill ws m s)) = nbm s.
Proof. revert s; induction ws as [|o ws IH]; intros s; [done|]; simpl; pose proof (one_send_nbm o (CNewMsg m) s) as H1; destruct (one_send o (CNewMsg m) s) as [s1 []]; simpl in *; [done|]; rewrite IH; done. Qed.
#[export] Hint Rewrite fulfill_nbm : fr_nbm.
Lemma fulfill_nwk ws m s : nwk (fst (fulfill ws m s)) = nwk s.
Proof. revert s; induction ws as [|o ws IH]; intros s; [done|]; simpl; pose proof (one_send_nwk o (CNewMsg m) s) as H1; destruct (one_send o (CNewMsg m) s) as [s1 []]; simpl in *; [done|]; rewrite IH; done. Qed.
#[export] Hint Rewrite fulfill_nwk : fr_nwk.
Lemma fulfill_log ws m s : log (fst (fulfill ws m s)) = log s.
Proof. revert s; induction ws as [|o ws IH]; intros s; [done|]; simpl; pose proof (one_send_log o (CNewMsg m) s) as H1; destruct (one_send o (CNewMsg m) s) as [s1 []]; simpl in *; [done|]; rewrite IH; done. Qed.
#[export] Hint Rewrite fulfill_log : fr_log.

Lemma try_fulfill_receiver_cap m s : cap (fst (try_fulfill_receiver m s)) = cap s.
Proof. apply fulfill_cap. Qed.
#[export] Hint Rewrite try_fulfill_receiver_cap : fr_cap.
Lemma try_fulfill_receiver_txc m s : txc (fst (try_fulfill_receiver m s)) = txc s.
Proof. apply fulfill_txc. Qed.
#[export] Hint Rewrite try_fulfill_receiver_txc : fr_txc.
Lemma try_fulfill_receiver_rxc m s : rxc (fst (try_fulfill_receiver m s)) = rxc s.
Proof. apply fulfill_rxc. Qed.
#[export] Hint Rewrite try_fulfill_receiver_rxc : fr_rxc.
Lemma try_fulfill_receiver_uq m s : uq (fst (try_fulfill_receiver m s)) = uq s.
Proof. apply fulfill_uq. Qed.
#[export] Hint Rewrite try_fulfill_receiver_uq : fr_uq.
Lemma try_fulfill_receiver_ws1 m s : ws1 (fst (try_fulfill_receiver m s)) = ws1 s.
Proof. apply fulfill_ws1. Qed.
#[export] Hint Rewrite try_fulfill_receiver_ws1 : fr_ws1.
Lemma try_fulfill_receiver_wsA m s : wsA (fst (try_fulfill_receiver m s)) = wsA s.
Proof. apply fulfill_wsA. Qed.
#[export] Hint Rewrite try_fulfill_receiver_wsA : fr_wsA.
Lemma try_fulfill_receiver_bqs m s : bqs (fst (try_fulfill_receiver m s)) = bqs s.
Proof. apply fulfill_bqs. Qed.
#[export] Hint Rewrite try_fulfill_receiver_bqs : fr_bqs.
Lemma try_fulfill_receiver_tail m s : tail (fst (try_fulfill_receiver m s)) = tail s.
Proof. apply fulfill_tail. Qed.
#[export] Hint Rewrite try_fulfill_receiver_tail : fr_tail.
Lemma try_fulfill_receiver_cells1 m s : cells1 (fst (try_fulfill_receiver m s)) = cells1 s.
Proof. apply fulfill_cells1. Qed.
#[export] Hint Rewrite try_fulfill_receiver_cells1 : fr_cells1.
Lemma try_fulfill_receiver_cellsA m s : cellsA (fst (try_fulfill_receiver m s)) = cellsA s.
Proof. apply fulfill_cellsA. Qed.
#[export] Hint Rewrite try_fulfill_receiver_cellsA : fr_cellsA.
Lemma try_fulfill_receiver_bqueues m s : bqueues (fst (try_fulfill_receiver m s)) = bqueues s.
Proof. apply fulfill_bqueues. Qed.
#[export] Hint Rewrite try_fulfill_receiver_bqueues : fr_bqueues.
Lemma try_fulfill_receiver_reps m s : reps (fst (try_fulfill_receiver m s)) = reps s.
Proof. apply fulfill_reps. Qed.
#[export] Hint Rewrite try_fulfill_receiver_reps : fr_reps.
Lemma try_fulfill_receiver_lsts m s : lsts (fst (try_fulfill_receiver m s)) = lsts s.
Proof. apply fulfill_lsts. Qed.
#[export] Hint Rewrite try_fulfill_receiver_lsts : fr_lsts.
Lemma try_fulfill_receiver_addrs m s : addrs (fst (try_fulfill_receiver m s)) = addrs s.
Proof. apply fulfill_addrs. Qed.
#[export] Hint Rewrite try_fulfill_receiver_addrs : fr_addrs.
Lemma try_fulfill_receiver_hols m s : hols (fst (try_fulfill_receiver m s)) = hols s.
Proof. apply fulfill_hols. Qed.
#[export] Hint Rewrite try_fulfill_receiver_hols : fr_hols.
Lemma try_fulfill_receiver_sfs m s : sfs (fst (try_fulfill_receiver m s)) = sfs s.
Proof. apply fulfill_sfs. Qed.
#[export] Hint Rewrite try_fulfill_receiver_sfs : fr_sfs.
Lemma try_fulfill_receiver_rcvs m s : rcvs (fst (try_fulfill_receiver m s)) = rcvs s.
Proof. apply fulfill_rcvs. Qed.
#[export] Hint Rewrite try_fulfill_receiver_rcvs : fr_rcvs.
Lemma try_fulfill_receiver_jhs m s : jhs (fst (try_fulfill_receiver m s)) = jhs s.
Proof. apply fulfill_jhs. Qed.
#[export] Hint Rewrite try_fulfill_receiver_jhs : fr_jhs.
Lemma try_fulfill_receiver_thr m s : thr (fst (try_fulfill_receiver m s)) = thr s.
Proof. apply fulfill_thr. Qed.
#[export] Hint Rewrite try_fulfill_receiver_thr : fr_thr.
Lemma try_fulfill_receiver_nbm m s : nbm (fst (try_fulfill_receiver m s)) = nbm s.
Proof. apply fulfill_nbm. Qed.
#[export] Hint Rewrite try_fulfill_receiver_nbm : fr_nbm.
Lemma try_fulfill_receiver_nwk m s : nwk (fst (try_fulfill_receiver m s)) = nwk s.
Proof. apply fulfill_nwk. Qed.
#[export] Hint Rewrite try_fulfill_receiver_nwk : fr_nwk.
Lemma try_fulfill_receiver_log m s : log (fst (try_fulfill_receiver m s)) = log s.
Proof. apply fulfill_log. Qed.
#[export] Hint Rewrite try_fulfill_receiver_log : fr_log.

Lemma take_waiting1_cap s : cap (fst (take_waiting1 s)) = cap s.
Proof. unfold take_waiting1; repeat (case_match; simplify_eq/=); simpl; autorewrite with fr_cap; simpl; autorewrite with fr_cap; done. Qed.
#[export] Hint Rewrite take_waiting1_cap : fr_cap.
Lemma take_waiting1_txc s : txc (fst (take_waiting1 s)) = txc s.
Proof. unfold take_waiting1; repeat (case_match; simplify_eq/=); simpl; autorewrite with fr_txc; simpl; autorewrite with fr_txc; done. Qed.
#[export] Hint Rewrite take_waiting1_txc : fr_txc.
Lemma take_waiting1_rxc s : rxc (fst (take_waiting1 s)) = rxc s.
Proof. unfold take_waiting1; repeat (case_match; simplify_eq/=); simpl; autorewrite with fr_rxc; simpl; autorewrite with fr_rxc; done. Qed.
#[export] Hint Rewrite take_waiting1_rxc : fr_rxc.
Lemma take_waiting1_uq s : uq (fst (take_waiting1 s)) = uq s.
Proof. unfold take_waiting1; repeat (case_match; simplify_eq/=); simpl; autorewrite with fr_uq; simpl; autorewrite with fr_uq; done. Qed.
#[export] Hint Rewrite take_waiting1_uq : fr_uq.
Lemma take_waiting1_wsA s : wsA (fst (take_waiting1 s)) = wsA s.
Proof. unfold take_waiting1; repeat (case_match; simplify_eq/=); simpl; autorewrite with fr_wsA; simpl; autorewrite with fr_wsA; done. Qed.
#[export] Hint Rewrite take_waiting1_wsA : fr_wsA.
Lemma take_waiting1_wrx s : wrx (fst (take_waiting1 s)) = wrx s.
Proof. unfold take_waiting1; repeat (case_match; simplify_eq/=); simpl; autorewrite with fr_wrx; simpl; autorewrite with fr_wrx; done. Qed.
#[export] Hint Rewrite take_waiting1_wrx : fr_wrx.
Lemma take_waiting1_bqs s : bqs (fst (take_waiting1 s)) = bqs s.
Proof. unfold take_waiting1; repeat (case_match; simplify_eq/=); simpl; autorewrite with fr_bqs; simpl; autorewrite with fr_bqs; done. Qed.
#[export] Hint Rewrite take_waiting1_bqs : fr_bqs.
Lemma take_waiting1_tail s : tail (fst (take_waiting1 s)) = tail s.
Proof. unfold take_waiting1; repeat (case_match; simplify_eq/=); simpl; autorewrite with fr_tail; simpl; autorewrite with fr_tail; done. Qed.
#[export] Hint Rewrite take_waiting1_tail : fr_tail.
Lemma take_waiting1_cellsA s : cellsA (fst (take_waiting1 s)) = cellsA s.
Proof. unfold take_waiting1; repeat (case_match; simplify_eq/=); simpl; autorewrite with fr_cellsA; simpl; autorewrite with fr_cellsA; done. Qed.
#[export] Hint Rewrite take_waiting1_cellsA : fr_cellsA.
Lemma take_waiting1_ones s : ones (fst (take_waiting1 s)) = ones s.
Proof. unfold take_waiting1; repeat (case_match; simplify_eq/=); simpl; autorewrite with fr_ones; simpl; autorewrite with fr_ones; done. Qed.
#[export] Hint Rewrite take_waiting1_ones : fr_ones.
Lemma take_waiting1_bqueues s : bqueues (fst (take_waiting1 s)) = bqueues s.
Proof. unfold take_waiting1; repeat (case_match; simplify_eq/=); simpl; autorewrite with fr_bqueues; simpl; autorewrite with fr_bqueues; done. Qed.
#[export] Hint Rewrite take_waiting1_bqueues : fr_bqueues.
Lemma take_waiting1_reps s : reps (fst (take_waiting1 s)) = reps s.
Proof. unfold take_waiting1; repeat (case_match; simplify_eq/=); simpl; autorewrite with fr_reps; simpl; autorewrite with fr_reps; done. Qed.
#[export] Hint Rewrite take_waiting1_reps : fr_reps.
Lemma take_waiting1_lsts s : lsts (fst (take_waiting1 s)) = lsts s.
Proof. unfold take_waiting1; repeat (case_match; simplify_eq/=); simpl; autorewrite with fr_lsts; simpl; autorewrite with fr_lsts; done. Qed.
#[export] Hint Rewrite take_waiting1_lsts : fr_lsts.
Lemma take_waiting1_addrs s : addrs (fst (take_waiting1 s)) = addrs s.
Proof. unfold take_waiting1; repeat (case_match; simplify_eq/=); simpl; autorewrite with fr_addrs; simpl; autorewrite with fr_addrs; done. Qed.
#[export] Hint Rewrite take_waiting1_addrs : fr_addrs.
Lemma take_waiting1_hols s : hols (fst (take_waiting1 s)) = hols s.
Proof. unfold take_waiting1; repeat (case_match; simplify_eq/=); simpl; autorewrite with fr_hols; simpl; autorewrite with fr_hols; done. Qed.
#[export] Hint Rewrite take_waiting1_hols : fr_hols.
Lemma take_waiting1_sfs s : sfs (fst (take_waiting1 s)) = sfs s.
Proof. unfold take_waiting1; repeat (case_match; simplify_eq/=); simpl; autorewrite with fr_sfs; simpl; autorewrite with fr_sfs; done. Qed.
#[export] Hint Rewrite take_waiting1_sfs : fr_sfs.
Lemma take_waiting1_rcvs s : rcvs (fst (take_waiting1 s)) = rcvs s.
Proof. unfold take_waiting1; repeat (case_match; simplify_eq/=); simpl; autorewrite with fr_rcvs; simpl; autorewrite with fr_rcvs; done. Qed.
#[export] Hint Rewrite take_waiting1_rcvs : fr_rcvs.
Lemma take_waiting1_jhs s : jhs (fst (take_waiting1 s)) = jhs s.
Proof. unfold take_waiting1; repeat (case_match; simplify_eq/=); simpl; autorewrite with fr_jhs; simpl; autorewrite with fr_jhs; done. Qed.
#[export] Hint Rewrite take_waiting1_jhs : fr_jhs.
Lemma take_waiting1_thr s : thr (fst (take_waiting1 s)) = thr s.
Proof. unfold take_waiting1; repeat (case_match; simplify_eq/=); simpl; autorewrite with fr_thr; simpl; autorewrite with fr_thr; done. Qed.
#[export] Hint Rewrite take_waiting1_thr : fr_thr.
Lemma take_waiting1_nbm s : nbm (fst (take_waiting1 s)) = nbm s.
Proof. unfold take_waiting1; repeat (case_match; simplify_eq/=); simpl; autorewrite with fr_nbm; simpl; autorewrite with fr_nbm; done. Qed.
#[export] Hint Rewrite take_waiting1_nbm : fr_nbm.
Lemma take_waiting1_nwk s : nwk (fst (take_waiting1 s)) = nwk s.
Proof. unfold take_waiting1; repeat (case_match; simplify_eq/=); simpl; autorewrite with fr_nwk; simpl; autorewrite with fr_nwk; done. Qed.
#[export] Hint Rewrite take_waiting1_nwk : fr_nwk.

Lemma take_waitingA_cap s : cap (fst (take_waitingA s)) = cap s.
Proof. unfold take_waitingA; repeat (case_match; simplify_eq/=); simpl; autorewrite with fr_cap; simpl; autorewrite with fr_cap; done. Qed.
#[export] Hint Rewrite take_waitingA_cap : fr_cap.
Lemma take_waitingA_txc s : txc (fst (take_waitingA s)) = txc s.
Proof. unfold take_waitingA; repeat (case_match; simplify_eq/=); simpl; autorewrite with fr_txc; simpl; autorewrite with fr_txc; done. Qed.
#[export] Hint Rewrite take_waitingA_txc : fr_txc.
Lemma take_waitingA_rxc s : rxc (fst (take_waitingA s)) = rxc s.
Proof. unfold take_waitingA; repeat (case_match; simplify_eq/=); simpl; autorewrite with fr_rxc; simpl; autorewrite with fr_rxc; done. Qed.
#[export] Hint Rewrite take_waitingA_rxc : fr_rxc.
Lemma take_waitingA_uq s : uq (fst (take_waitingA s)) = uq s.
Proof. unfold take_waitingA; repeat (case_match; simplify_eq/=); simpl; autorewrite with fr_uq; simpl; autorewrite with fr_uq; done. Qed.
#[export] Hint Rewrite take_waitingA_uq : fr_uq.
Lemma take_waitingA_ws1 s : ws1 (fst (take_waitingA s)) = ws1 s.
Proof. unfold take_waitingA; repeat (case_match; simplify_eq/=); simpl; autorewrite with fr_ws1; simpl; autorewrite with fr_ws1; done. Qed.
#[export] Hint Rewrite take_waitingA_ws1 : fr_ws1.
Lemma take_waitingA_wrx s : wrx (fst (take_waitingA s)) = wrx s.
Proof. unfold take_waitingA; repeat (case_match; simplify_eq/=); simpl; autorewrite with fr_wrx; simpl; autorewrite with fr_wrx; done. Qed.
#[export] Hint Rewrite take_waitingA_wrx : fr_wrx.
Lemma take_waitingA_bqs s : bqs (fst (take_waitingA s)) = bqs s.
Proof. unfold take_waitingA; repeat (case_match; simplify_eq/=); simpl; autorewrite with fr_bqs; simpl; autorewrite with fr_bqs; done. Qed.
#[export] Hint Rewrite take_waitingA_bqs : fr_bqs.
Lemma take_waitingA_tail s : tail (fst (take_waitingA s)) = tail s.
Proof. unfold take_waitingA; repeat (case_match; simplify_eq/=); simpl; autorewrite with fr_tail; simpl; autorewrite with fr_tail; done. Qed.
#[export] Hint Rewrite take_waitingA_tail : fr_tail.
Lemma take_waitingA_cells1 s : cells1 (fst (take_waitingA s)) = cells1 s.
Proof. unfold take_waitingA; repeat (case_match; simplify_eq/=); simpl; autorewrite with fr_cells1; simpl; autorewrite with fr_cells1; done. Qed.
#[export] Hint Rewrite take_waitingA_cells1 : fr_cells1.
Lemma take_waitingA_ones s : ones (fst (take_waitingA s)) = ones s.
Proof. unfold take_waitingA; repeat (case_match; simplify_eq/=); simpl; autorewrite with fr_ones; simpl; autorewrite with fr_ones; done. Qed.
#[export] Hint Rewrite take_waitingA_ones : fr_ones.
Lemma take_waitingA_bqueues s : bqueues (fst (take_waitingA s)) = bqueues s.
Proof. unfold take_waitingA; repeat (case_match; simplify_eq/=); simpl; autorewrite with fr_bqueues; simpl; autorewrite with fr_bqueues; done. Qed.
#[export] Hint Rewrite take_waitingA_bqueues : fr_bqueues.
Lemma take_waitingA_reps s : reps (fst (take_waitingA s)) = reps s.
Proof. unfold take_waitingA; repeat (case_match; simplify_eq/=); simpl; autorewrite with fr_reps; simpl; autorewrite with fr_reps; done. Qed.
#[export] Hint Rewrite take_waitingA_reps : fr_reps.
Lemma take_waitingA_lsts s : lsts (fst (take_waitingA s)) = lsts s.
Proof. unfold take_waitingA; repeat (case_match; simplify_eq/=); simpl; autorewrite with fr_lsts; simpl; autorewrite with fr_lsts; done. Qed.
#[export] Hint Rewrite take_waitingA_lsts : fr_lsts.
Lemma take_waitingA_addrs s : addrs (fst (take_waitingA s)) = addrs s.
Proof. unfold take_waitingA; repeat (case_match; simplify_eq/=); simpl; autorewrite with fr_addrs; simpl; autorewrite with fr_addrs; done. Qed.
#[export] Hint Rewrite take_waitingA_addrs : fr_addrs.
Lemma take_waitingA_hols s : hols (fst (take_waitingA s)) = hols s.
Proof. unfold take_waitingA; repeat (case_match; simplify_eq/=); simpl; autorewrite with fr_hols; simpl; autorewrite with fr_hols; done. Qed.
#[export] Hint Rewrite take_waitingA_hols : fr_hols.
Lemma take_waitingA_sfs s : sfs (fst (take_waitingA s)) = sfs s.
Proof. unfold take_waitingA; repeat (case_match; simplify_eq/=); simpl; autorewrite with fr_sfs; simpl; autorewrite with fr_sfs; done. Qed.
#[export] Hint Rewrite take_waitingA_sfs : fr_sfs.
Lemma take_waitingA_rcvs s : rcvs (fst (take_waitingA s)) = rcvs s.
Proof. unfold take_waitingA; repeat (case_match; simplify_eq/=); simpl; autorewrite with fr_rcvs; simpl; autorewrite with fr_rcvs; done. Qed.
#[export] Hint Rewrite take_waitingA_rcvs : fr_rcvs.
Lemma take_waitingA_jhs s : jhs (fst (take_waitingA s)) = jhs s.
Proof. unfold take_waitingA; repeat (case_match; simplify_eq/=); simpl; autorewrite with fr_jhs; simpl; autorewrite with fr_jhs; done. Qed.
#[export] Hint Rewrite take_waitingA_jhs : fr_jhs.
Lemma take_waitingA_thr s : thr (fst (take_waitingA s)) = thr s.
Proof. unfold take_waitingA; repeat (case_match; simplify_eq/=); simpl; autorewrite with fr_thr; simpl; autorewrite with fr_thr; done. Qed.
#[export] Hint Rewrite take_waitingA_thr : fr_thr.
Lemma take_waitingA_nbm s : nbm (fst (take_waitingA s)) = nbm s.
Proof. unfold take_waitingA; repeat (case_match; simplify_eq/=); simpl; autorewrite with fr_nbm; simpl; autorewrite with fr_nbm; done. Qed.
#[export] Hint Rewrite take_waitingA_nbm : fr_nbm.
Lemma take_waitingA_nwk s : nwk (fst (take_waitingA s)) = nwk s.
Proof. unfold take_waitingA; repeat (case_match; simplify_eq/=); simpl; autorewrite with fr_nwk; simpl; autorewrite with fr_nwk; done. Qed.
#[export] Hint Rewrite take_waitingA_nwk : fr_nwk.
Lemma take_waitingA_log s : log (fst (take_waitingA s)) = log s.
Proof. unfold take_waitingA; repeat (case_match; simplify_eq/=); simpl; autorewrite with fr_log; simpl; autorewrite with fr_log; done. Qed.
#[export] Hint Rewrite take_waitingA_log : fr_log.

Lemma push_unicast_cap m s : cap (push_unicast m s) = cap s.
Proof. unfold push_unicast; repeat (case_match; simplify_eq/=); simpl; autorewrite with fr_cap; simpl; autorewrite with fr_cap; done. Qed.
#[export] Hint Rewrite push_unicast_cap : fr_cap.
Lemma push_unicast_txc m s : txc (push_unicast m s) = txc s.
Proof. unfold push_unicast; repeat (case_match; simplify_eq/=); simpl; autorewrite with fr_txc; simpl; autorewrite with fr_txc; done. Qed.
#[export] Hint Rewrite push_unicast_txc : fr_txc.
Lemma push_unicast_rxc m s : rxc (push_unicast m s) = rxc s.
Proof. unfold push_unicast; repeat (case_match; simplify_eq/=); simpl; autorewrite with fr_rxc; simpl; autorewrite with fr_rxc; done. Qed.
#[export] Hint Rewrite push_unicast_rxc : fr_rxc.
Lemma push_unicast_ws1 m s : ws1 (push_unicast m s) = ws1 s.
Proof. unfold push_unicast; repeat (case_match; simplify_eq/=); simpl; autorewrite with fr_ws1; simpl; autorewrite with fr_ws1; done. Qed.
#[export] Hint Rewrite push_unicast_ws1 : fr_ws1.
Lemma push_unicast_wsA m s : wsA (push_unicast m s) = wsA s.
Proof. unfold push_unicast; repeat (case_match; simplify_eq/=); simpl; autorewrite with fr_wsA; simpl; autorewrite with fr_wsA; done. Qed.
#[export] Hint Rewrite push_unicast_wsA : fr_wsA.
Lemma push_unicast_wrx m s : wrx (push_unicast m s) = wrx s.
Proof. unfold push_unicast; repeat (case_match; simplify_eq/=); simpl; autorewrite with fr_wrx; simpl; autorewrite with fr_wrx; done. Qed.
#[export] Hint Rewrite push_unicast_wrx : fr_wrx.
Lemma push_unicast_bqs m s : bqs (push_unicast m s) = bqs s.
Proof. unfold push_unicast; repeat (case_match; simplify_eq/=); simpl; autorewrite with fr_bqs; simpl; autorewrite with fr_bqs; done. Qed.
#[export] Hint Rewrite push_unicast_bqs : fr_bqs.
Lemma push_unicast_tail m s : tail (push_unicast m s) = tail s.
Proof. unfold push_unicast; repeat (case_match; simplify_eq/=); simpl; autorewrite with fr_tail; simpl; autorewrite with fr_tail; done. Qed.
#[export] Hint Rewrite push_unicast_tail : fr_tail.
Lemma push_unicast_cells1 m s : cells1 (push_unicast m s) = cells1 s.
Proof. unfold push_unicast; repeat (case_match; simplify_eq/=); simpl; autorewrite with fr_cells1; simpl; autorewrite with fr_cells1; done. Qed.
#[export] Hint Rewrite push_unicast_cells1 : fr_cells1.
Lemma push_unicast_cellsA m s : cellsA (push_unicast m s) = cellsA s.
Proof. unfold push_unicast; repeat (case_match; simplify_eq/=); simpl; autorewrite with fr_cellsA; simpl; autorewrite with fr_cellsA; done. Qed.
#[export] Hint Rewrite push_unicast_cellsA : fr_cellsA.
Lemma push_unicast_ones m s : ones (push_unicast m s) = ones s.
Proof. unfold push_unicast; repeat (case_match; simplify_eq/=); simpl; autorewrite with fr_ones; simpl; autorewrite with fr_ones; done. Qed.
#[export] Hint Rewrite push_unicast_ones : fr_ones.
Lemma push_unicast_bqueues m s : bqueues (push_unicast m s) = bqueues s.
Proof. unfold push_unicast; repeat (case_match; simplify_eq/=); simpl; autorewrite with fr_bqueues; simpl; autorewrite with fr_bqueues; done. Qed.
#[export] Hint Rewrite push_unicast_bqueues : fr_bqueues.
Lemma push_unicast_reps m s : reps (push_unicast m s) = reps s.
Proof. unfold push_unicast; repeat (case_match; simplify_eq/=); simpl; autorewrite with fr_reps; simpl; autorewrite with fr_reps; done. Qed.
#[export] Hint Rewrite push_unicast_reps : fr_reps.
Lemma push_unicast_lsts m s : lsts (push_unicast m s) = lsts s.
Proof. unfold push_unicast; repeat (case_match; simplify_eq/=); simpl; autorewrite with fr_lsts; simpl; autorewrite with fr_lsts; done. Qed.
#[export] Hint Rewrite push_unicast_lsts : fr_lsts.
Lemma push_unicast_addrs m s : addrs (push_unicast m s) = addrs s.
Proof. unfold push_unicast; repeat (case_match; simplify_eq/=); simpl; autorewrite with fr_addrs; simpl; autorewrite with fr_addrs; done. Qed.
#[export] Hint Rewrite push_unicast_addrs : fr_addrs.
Lemma push_unicast_hols m s : hols (push_unicast m s) = hols s.
Proof. unfold push_unicast; repeat (case_match; simplify_eq/=); simpl; autorewrite with fr_hols; simpl; autorewrite with fr_hols; done. Qed.
#[export] Hint Rewrite push_unicast_hols : fr_hols.
Lemma push_unicast_sfs m s : sfs (push_unicast m s) = sfs s.
Proof. unfold push_unicast; repeat (case_match; simplify_eq/=); simpl; autorewrite with fr_sfs; simpl; autorewrite with fr_sfs; done. Qed.
#[export] Hint Rewrite push_unicast_sfs : fr_sfs.
Lemma push_unicast_rcvs m s : rcvs (push_unicast m s) = rcvs s.
Proof. unfold push_unicast; repeat (case_match; simplify_eq/=); simpl; autorewrite with fr_rcvs; simpl; autorewrite with fr_rcvs; done. Qed.
#[export] Hint Rewrite push_unicast_rcvs : fr_rcvs.
Lemma push_unicast_jhs m s : jhs (push_unicast m s) = jhs s.
Proof. unfold push_unicast; repeat (case_match; simplify_eq/=); simpl; autorewrite with fr_jhs; simpl; autorewrite with fr_jhs; done. Qed.
#[export] Hint Rewrite push_unicast_jhs : fr_jhs.
Lemma push_unicast_thr m s : thr (push_unicast m s) = thr s.
Proof. unfold push_unicast; repeat (case_match; simplify_eq/=); simpl; autorewrite with fr_thr; simpl; autorewrite with fr_thr; done. Qed.
#[export] Hint Rewrite push_unicast_thr : fr_thr.
Lemma push_unicast_nbm m s : nbm (push_unicast m s) = nbm s.
Proof. unfold push_unicast; repeat (case_match; simplify_eq/=); simpl; autorewrite with fr_nbm; simpl; autorewrite with fr_nbm; done. Qed.
#[export] Hint Rewrite push_unicast_nbm : fr_nbm.
Lemma push_unicast_nwk m s : nwk (push_unicast m s) = nwk s.
Proof. unfold push_unicast; repeat (case_match; simplify_eq/=); simpl; autorewrite with fr_nwk; simpl; autorewrite with fr_nwk; done. Qed.
#[export] Hint Rewrite push_unicast_nwk : fr_nwk.
Lemma push_unicast_wakes m s : wakes (push_unicast m s) = wakes s.
Proof. unfold push_unicast; repeat (case_match; simplify_eq/=); simpl; autorewrite with fr_wakes; simpl; autorewrite with fr_wakes; done. Qed.
#[export] Hint Rewrite push_unicast_wakes : fr_wakes.
Lemma push_unicast_log m s : log (push_unicast m s) = log s.
Proof. unfold push_unicast; repeat (case_match; simplify_eq/=); simpl; autorewrite with fr_log; simpl; autorewrite with fr_log; done. Qed.
#[export] Hint Rewrite push_unicast_log : fr_log.

Lemma pop_unicast_cap s : cap (fst (pop_unicast s)) = cap s.
Proof. unfold pop_unicast; destruct (heap_pop _ _) as [[??]|]; [|done]; cbv zeta; case_match; [simpl; autorewrite with fr_cap; done|]; match goal with |- context [take_waiting1 ?x] => pose proof (take_waiting1_cap x) as HH; destruct (take_waiting1 x) as [? [?|]] end; simpl in *; autorewrite with fr_cap in *; simpl in *; autorewrite with fr_cap in *; congruence. Qed.
#[export] Hint Rewrite pop_unicast_cap : fr_cap.
Lemma pop_unicast_txc s : txc (fst (pop_unicast s)) = txc s.
Proof. unfold pop_unicast; destruct (heap_pop _ _) as [[??]|]; [|done]; cbv zeta; case_match; [simpl; autorewrite with fr_txc; done|]; match goal with |- context [take_waiting1 ?x] => pose proof (take_waiting1_txc x) as HH; destruct (take_waiting1 x) as [? [?|]] end; simpl in *; autorewrite with fr_txc in *; simpl in *; autorewrite with fr_txc in *; congruence. Qed.
#[export] Hint Rewrite pop_unicast_txc : fr_txc.
Lemma pop_unicast_rxc s : rxc (fst (pop_unicast s)) = rxc s.
Proof. unfold pop_unicast; destruct (heap_pop _ _) as [[??]|]; [|done]; cbv zeta; case_match; [simpl; autorewrite with fr_rxc; done|]; match goal with |- context [take_waiting1 ?x] => pose proof (take_waiting1_rxc x) as HH; destruct (take_waiting1 x) as [? [?|]] end; simpl in *; autorewrite with fr_rxc in *; simpl in *; autorewrite with fr_rxc in *; congruence. Qed.
#[export] Hint Rewrite pop_unicast_rxc : fr_rxc.
Lemma pop_unicast_wsA s : wsA (fst (pop_unicast s)) = wsA s.
Proof. unfold pop_unicast; destruct (heap_pop _ _) as [[??]|]; [|done]; cbv zeta; case_match; [simpl; autorewrite with fr_wsA; done|]; match goal with |- context [take_waiting1 ?x] => pose proof (take_waiting1_wsA x) as HH; destruct (take_waiting1 x) as [? [?|]] end; simpl in *; autorewrite with fr_wsA in *; simpl in *; autorewrite with fr_wsA in *; congruence. Qed.
#[export] Hint Rewrite pop_unicast_wsA : fr_wsA.
Lemma pop_unicast_wrx s : wrx (fst (pop_unicast s)) = wrx s.
Proof. unfold pop_unicast; destruct (heap_pop _ _) as [[??]|]; [|done]; cbv zeta; case_match; [simpl; autorewrite with fr_wrx; done|]; match goal with |- context [take_waiting1 ?x] => pose proof (take_waiting1_wrx x) as HH; destruct (take_waiting1 x) as [? [?|]] end; simpl in *; autorewrite with fr_wrx in *; simpl in *; autorewrite with fr_wrx in *; congruence. Qed.
#[export] Hint Rewrite pop_unicast_wrx : fr_wrx.
Lemma pop_unicast_bqs s : bqs (fst (pop_unicast s)) = bqs s.
Proof. unfold pop_unicast; destruct (heap_pop _ _) as [[??]|]; [|done]; cbv zeta; case_match; [simpl; autorewrite with fr_bqs; done|]; match goal with |- context [take_waiting1 ?x] => pose proof (take_waiting1_bqs x) as HH; destruct (take_waiting1 x) as [? [?|]] end; simpl in *; autorewrite with fr_bqs in *; simpl in *; autorewrite with fr_bqs in *; congruence. Qed.
#[export] Hint Rewrite pop_unicast_bqs : fr_bqs.
Lemma pop_unicast_tail s : tail (fst (pop_unicast s)) = tail s.
Proof. unfold pop_unicast; destruct (heap_pop _ _) as [[??]|]; [|done]; cbv zeta; case_match; [simpl; autorewrite with fr_tail; done|]; match goal with |- context [take_waiting1 ?x] => pose proof (take_waiting1_tail x) as HH; destruct (take_waiting1 x) as [? [?|]] end; simpl in *; autorewrite with fr_tail in *; simpl in *; autorewrite with fr_tail in *; congruence. Qed.
#[export] Hint Rewrite pop_unicast_tail : fr_tail.
Lemma pop_unicast_cellsA s : cellsA (fst (pop_unicast s)) = cellsA s.
Proof. unfold pop_unicast; destruct (heap_pop _ _) as [[??]|]; [|done]; cbv zeta; case_match; [simpl; autorewrite with fr_cellsA; done|]; match goal with |- context [take_waiting1 ?x] => pose proof (take_waiting1_cellsA x) as HH; destruct (take_waiting1 x) as [? [?|]] end; simpl in *; autorewrite with fr_cellsA in *; simpl in *; autorewrite with fr_cellsA in *; congruence. Qed.
#[export] Hint Rewrite pop_unicast_cellsA : fr_cellsA.
Lemma pop_unicast_ones s : ones (fst (pop_unicast s)) = ones s.
Proof. unfold pop_unicast; destruct (heap_pop _ _) as [[??]|]; [|done]; cbv zeta; case_match; [simpl; autorewrite with fr_ones; done|]; match goal with |- context [take_waiting1 ?x] => pose proof (take_waiting1_ones x) as HH; destruct (take_waiting1 x) as [? [?|]] end; simpl in *; autorewrite with fr_ones in *; simpl in *; autorewrite with fr_ones in *; congruence. Qed.
#[export] Hint Rewrite pop_unicast_ones : fr_ones.
Lemma pop_unicast_bqueues s : bqueues (fst (pop_unicast s)) = bqueues s.
Proof. unfold pop_unicast; destruct (heap_pop _ _) as [[??]|]; [|done]; cbv zeta; case_match; [simpl; autorewrite with fr_bqueues; done|]; match goal with |- context [take_waiting1 ?x] => pose proof (take_waiting1_bqueues x) as HH; destruct (take_waiting1 x) as [? [?|]] end; simpl in *; autorewrite with fr_bqueues in *; simpl in *; autorewrite with fr_bqueues in *; congruence. Qed.
#[export] Hint Rewrite pop_unicast_bqueues : fr_bqueues.
Lemma pop_unicast_reps s : reps (fst (pop_unicast s)) = reps s.
Proof. unfold pop_unicast; destruct (heap_pop _ _) as [[??]|]; [|done]; cbv zeta; case_match; [simpl; autorewrite with fr_reps; done|]; match goal with |- context [take_waiting1 ?x] => pose proof (take_waiting1_reps x) as HH; destruct (take_waiting1 x) as [? [?|]] end; simpl in *; autorewrite with fr_reps in *; simpl in *; autorewrite with fr_reps in *; congruence. Qed.
#[export] Hint Rewrite pop_unicast_reps : fr_reps.
Lemma pop_unicast_lsts s : lsts (fst (pop_unicast s)) = lsts s.
Proof. unfold pop_unicast; destruct (heap_pop _ _) as [[??]|]; [|done]; cbv zeta; case_match; [simpl; autorewrite with fr_lsts; done|]; match goal with |- context [take_waiting1 ?x] => pose proof (take_waiting1_lsts x) as HH; destruct (take_waiting1 x) as [? [?|]] end; simpl in *; autorewrite with fr_lsts in *; simpl in *; autorewrite with fr_lsts in *; congruence. Qed.
#[export] Hint Rewrite pop_unicast_lsts : fr_lsts.
Lemma pop_unicast_addrs s : addrs (fst (pop_unicast s)) = addrs s.
Proof. unfold pop_unicast; destruct (heap_pop _ _) as [[??]|]; [|done]; cbv zeta; case_match; [simpl; autorewrite with fr_addrs; done|]; match goal with |- context [take_waiting1 ?x] => pose proof (take_waiting1_addrs x) as HH; destruct (take_waiting1 x) as [? [?|]] end; simpl in *; autorewrite with fr_addrs in *; simpl in *; autorewrite with fr_addrs in *; congruence. Qed.
#[export] Hint Rewrite pop_unicast_addrs : fr_addrs.
Lemma pop_unicast_hols s : hols (fst (pop_unicast s)) = hols s.
Proof. unfold pop_unicast; destruct (heap_pop _ _) as [[??]|]; [|done]; cbv zeta; case_match; [simpl; autorewrite with fr_hols; done|]; match goal with |- context [take_waiting1 ?x] => pose proof (take_waiting1_hols x) as HH; destruct (take_waiting1 x) as [? [?|]] end; simpl in *; autorewrite with fr_hols in *; simpl in *; autorewrite with fr_hols in *; congruence. Qed.
#[export] Hint Rewrite pop_unicast_hols : fr_hols.
Lemma pop_unicast_sfs s : sfs (fst (pop_unicast s)) = sfs s.
Proof. unfold pop_unicast; destruct (heap_pop _ _) as [[??]|]; [|done]; cbv zeta; case_match; [simpl; autorewrite with fr_sfs; done|]; match goal with |- context [take_waiting1 ?x] => pose proof (take_waiting1_sfs x) as HH; destruct (take_waiting1 x) as [? [?|]] end; simpl in *; autorewrite with fr_sfs in *; simpl in *; autorewrite with fr_sfs in *; congruence. Qed.
#[export] Hint Rewrite pop_unicast_sfs : fr_sfs.
Lemma pop_unicast_rcvs s : rcvs (fst (pop_unicast s)) = rcvs s.
Proof. unfold pop_unicast; destruct (heap_pop _ _) as [[??]|]; [|done]; cbv zeta; case_match; [simpl; autorewrite with fr_rcvs; done|]; match goal with |- context [take_waiting1 ?x] => pose proof (take_waiting1_rcvs x) as HH; destruct (take_waiting1 x) as [? [?|]] end; simpl in *; autorewrite with fr_rcvs in *; simpl in *; autorewrite with fr_rcvs in *; congruence. Qed.
#[export] Hint Rewrite pop_unicast_rcvs : fr_rcvs.
Lemma pop_unicast_jhs s : jhs (fst (pop_unicast s)) = jhs s.
Proof. unfold pop_unicast; destruct (heap_pop _ _) as [[??]|]; [|done]; cbv zeta; case_match; [simpl; autorewrite with fr_jhs; done|]; match goal with |- context [take_waiting1 ?x] => pose proof (take_waiting1_jhs x) as HH; destruct (take_waiting1 x) as [? [?|]] end; simpl in *; autorewrite with fr_jhs in *; simpl in *; autorewrite with fr_jhs in *; congruence. Qed.
#[export] Hint Rewrite pop_unicast_jhs : fr_jhs.
Lemma pop_unicast_thr s : thr (fst (pop_unicast s)) = thr s.
Proof. unfold pop_unicast; destruct (heap_pop _ _) as [[??]|]; [|done]; cbv zeta; case_match; [simpl; autorewrite with fr_thr; done|]; match goal with |- context [take_waiting1 ?x] => pose proof (take_waiting1_thr x) as HH; destruct (take_waiting1 x) as [? [?|]] end; simpl in *; autorewrite with fr_thr in *; simpl in *; autorewrite with fr_thr in *; congruence. Qed.
#[export] Hint Rewrite pop_unicast_thr : fr_thr.
Lemma pop_unicast_nbm s : nbm (fst (pop_unicast s)) = nbm s.
Proof. unfold pop_unicast; destruct (heap_pop _ _) as [[??]|]; [|done]; cbv zeta; case_match; [simpl; autorewrite with fr_nbm; done|]; match goal with |- context [take_waiting1 ?x] => pose proof (take_waiting1_nbm x) as HH; destruct (take_waiting1 x) as [? [?|]] end; simpl in *; autorewrite with fr_nbm in *; simpl in *; autorewrite with fr_nbm in *; congruence. Qed.
#[export] Hint Rewrite pop_unicast_nbm : fr_nbm.
Lemma pop_unicast_nwk s : nwk (fst (pop_unicast s)) = nwk s.
Proof. unfold pop_unicast; destruct (heap_pop _ _) as [[??]|]; [|done]; cbv zeta; case_match; [simpl; autorewrite with fr_nwk; done|]; match goal with |- context [take_waiting1 ?x] => pose proof (take_waiting1_nwk x) as HH; destruct (take_waiting1 x) as [? [?|]] end; simpl in *; autorewrite with fr_nwk in *; simpl in *; autorewrite with fr_nwk in *; congruence. Qed.
#[export] Hint Rewrite pop_unicast_nwk : fr_nwk.

Lemma bq_put_cap b h s : cap (bq_put b h s) = cap s.
Proof. unfold bq_put; repeat (case_match; simplify_eq/=); simpl; autorewrite with fr_cap; simpl; autorewrite with fr_cap; done. Qed.
#[export] Hint Rewrite bq_put_cap : fr_cap.
Lemma bq_put_txc b h s : txc (bq_put b h s) = txc s.
Proof. unfold bq_put; repeat (case_match; simplify_eq/=); simpl; autorewrite with fr_txc; simpl; autorewrite with fr_txc; done. Qed.
#[export] Hint Rewrite bq_put_txc : fr_txc.
Lemma bq_put_rxc b h s : rxc (bq_put b h s) = rxc s.
Proof. unfold bq_put; repeat (case_match; simplify_eq/=); simpl; autorewrite with fr_rxc; simpl; autorewrite with fr_rxc; done. Qed.
#[export] Hint Rewrite bq_put_rxc : fr_rxc.
Lemma bq_put_uq b h s : uq (bq_put b h s) = uq s.
Proof. unfold bq_put; repeat (case_match; simplify_eq/=); simpl; autorewrite with fr_uq; simpl; autorewrite with fr_uq; done. Qed.
#[export] Hint Rewrite bq_put_uq : fr_uq.
Lemma bq_put_ws1 b h s : ws1 (bq_put b h s) = ws1 s.
Proof. unfold bq_put; repeat (case_match; simplify_eq/=); simpl; autorewrite with fr_ws1; simpl; autorewrite with fr_ws1; done. Qed.
#[export] Hint Rewrite bq_put_ws1 : fr_ws1.
Lemma bq_put_wsA b h s : wsA (bq_put b h s) = wsA s.
Proof. unfold bq_put; repeat (case_match; simplify_eq/=); simpl; autorewrite with fr_wsA; simpl; autorewrite with fr_wsA; done. Qed.
#[export] Hint Rewrite bq_put_wsA : fr_wsA.
Lemma bq_put_wrx b h s : wrx (bq_put b h s) = wrx s.
Proof. unfold bq_put; repeat (case_match; simplify_eq/=); simpl; autorewrite with fr_wrx; simpl; autorewrite with fr_wrx; done. Qed.
#[export] Hint Rewrite bq_put_wrx : fr_wrx.
Lemma bq_put_bqs b h s : bqs (bq_put b h s) = bqs s.
Proof. unfold bq_put; repeat (case_match; simplify_eq/=); simpl; autorewrite with fr_bqs; simpl; autorewrite with fr_bqs; done. Qed.
#[export] Hint Rewrite bq_put_bqs : fr_bqs.
Lemma bq_put_tail b h s : tail (bq_put b h s) = tail s.
Proof. unfold bq_put; repeat (case_match; simplify_eq/=); simpl; autorewrite with fr_tail; simpl; autorewrite with fr_tail; done. Qed.
#[export] Hint Rewrite bq_put_tail : fr_tail.
Lemma bq_put_cells1 b h s : cells1 (bq_put b h s) = cells1 s.
Proof. unfold bq_put; repeat (case_match; simplify_eq/=); simpl; autorewrite with fr_cells1; simpl; autorewrite with fr_cells1; done. Qed.
#[export] Hint Rewrite bq_put_cells1 : fr_cells1.
Lemma bq_put_cellsA b h s : cellsA (bq_put b h s) = cellsA s.
Proof. unfold bq_put; repeat (case_match; simplify_eq/=); simpl; autorewrite with fr_cellsA; simpl; autorewrite with fr_cellsA; done. Qed.
#[export] Hint Rewrite bq_put_cellsA : fr_cellsA.
Lemma bq_put_ones b h s : ones (bq_put b h s) = ones s.
Proof. unfold bq_put; repeat (case_match; simplify_eq/=); simpl; autorewrite with fr_ones; simpl; autorewrite with fr_ones; done. Qed.
#[export] Hint Rewrite bq_put_ones : fr_ones.
Lemma bq_put_reps b h s : reps (bq_put b h s) = reps s.
Proof. unfold bq_put; repeat (case_match; simplify_eq/=); simpl; autorewrite with fr_reps; simpl; autorewrite with fr_reps; done. Qed.
#[export] Hint Rewrite bq_put_reps : fr_reps.
Lemma bq_put_lsts b h s : lsts (bq_put b h s) = lsts s.
Proof. unfold bq_put; repeat (case_match; simplify_eq/=); simpl; autorewrite with fr_lsts; simpl; autorewrite with fr_lsts; done. Qed.
#[export] Hint Rewrite bq_put_lsts : fr_lsts.
Lemma bq_put_addrs b h s : addrs (bq_put b h s) = addrs s.
Proof. unfold bq_put; repeat (case_match; simplify_eq/=); simpl; autorewrite with fr_addrs; simpl; autorewrite with fr_addrs; done. Qed.
#[export] Hint Rewrite bq_put_addrs : fr_addrs.
Lemma bq_put_hols b h s : hols (bq_put b h s) = hols s.
Proof. unfold bq_put; repeat (case_match; simplify_eq/=); simpl; autorewrite with fr_hols; simpl; autorewrite with fr_hols; done. Qed.
#[export] Hint Rewrite bq_put_hols : fr_hols.
Lemma bq_put_sfs b h s : sfs (bq_put b h s) = sfs s.
Proof. unfold bq_put; repeat (case_match; simplify_eq/=); simpl; autorewrite with fr_sfs; simpl; autorewrite with fr_sfs; done. Qed.
#[export] Hint Rewrite bq_put_sfs : fr_sfs.
Lemma bq_put_rcvs b h s : rcvs (bq_put b h s) = rcvs s.
Proof. unfold bq_put; repeat (case_match; simplify_eq/=); simpl; autorewrite with fr_rcvs; simpl; autorewrite with fr_rcvs; done. Qed.
#[export] Hint Rewrite bq_put_rcvs : fr_rcvs.
Lemma bq_put_jhs b h s : jhs (bq_put b h s) = jhs s.
Proof. unfold bq_put; repeat (case_match; simplify_eq/=); simpl; autorewrite with fr_jhs; simpl; autorewrite with fr_jhs; done. Qed.
#[export] Hint Rewrite bq_put_jhs : fr_jhs.
Lemma bq_put_thr b h s : thr (bq_put b h s) = thr s.
Proof. unfold bq_put; repeat (case_match; simplify_eq/=); simpl; autorewrite with fr_thr; simpl; autorewrite with fr_thr; done. Qed.
#[export] Hint Rewrite bq_put_thr : fr_thr.
Lemma bq_put_nbm b h s : nbm (bq_put b h s) = nbm s.
Proof. unfold bq_put; repeat (case_match; simplify_eq/=); simpl; autorewrite with fr_nbm; simpl; autorewrite with fr_nbm; done. Qed.
#[export] Hint Rewrite bq_put_nbm : fr_nbm.
Lemma bq_put_nwk b h s : nwk (bq_put b h s) = nwk s.
Proof. unfold bq_put; repeat (case_match; simplify_eq/=); simpl; autorewrite with fr_nwk; simpl; autorewrite with fr_nwk; done. Qed.
#[export] Hint Rewrite bq_put_nwk : fr_nwk.
Lemma bq_put_wakes b h s : wakes (bq_put b h s) = wakes s.
Proof. unfold bq_put; repeat (case_match; simplify_eq/=); simpl; autorewrite with fr_wakes; simpl; autorewrite with fr_wakes; done. Qed.
#[export] Hint Rewrite bq_put_wakes : fr_wakes.
Lemma bq_put_log b h s : log (bq_put b h s) = log s.
Proof. unfold bq_put; repeat (case_match; simplify_eq/=); simpl; autorewrite with fr_log; simpl; autorewrite with fr_log; done. Qed.
#[export] Hint Rewrite bq_put_log : fr_log.

Lemma bq_puts_cap m l s : cap (fold_left (λ s b, bq_put b (heap_push bm_prio m (bq_get s b)) s) l s) = cap s.
Proof. apply fold_left_proj; intros; try case_match; autorewrite with fr_cap; done. Qed.
#[export] Hint Rewrite bq_puts_cap : fr_cap.
Lemma bq_puts_txc m l s : txc (fold_left (λ s b, bq_put b (heap_push bm_prio m (bq_get s b)) s) l s) = txc s.
Proof. apply fold_left_proj; intros; try case_match; autorewrite with fr_txc; done. Qed.
#[export] Hint Rewrite bq_puts_txc : fr_txc.
Lemma bq_puts_rxc m l s : rxc (fold_left (λ s b, bq_put b (heap_push bm_prio m (bq_get s b)) s) l s) = rxc s.
Proof. apply fold_left_proj; intros; try case_match; autorewrite with fr_rxc; done. Qed.
#[export] Hint Rewrite bq_puts_rxc : fr_rxc.
Lemma bq_puts_uq m l s : uq (fold_left (λ s b, bq_put b (heap_push bm_prio m (bq_get s b)) s) l s) = uq s.
Proof. apply fold_left_proj; intros; try case_match; autorewrite with fr_uq; done. Qed.
#[export] Hint Rewrite bq_puts_uq : fr_uq.
Lemma bq_puts_ws1 m l s : ws1 (fold_left (λ s b, bq_put b (heap_push bm_prio m (bq_get s b)) s) l s) = ws1 s.
Proof. apply fold_left_proj; intros; try case_match; autorewrite with fr_ws1; done. Qed.
#[export] Hint Rewrite bq_puts_ws1 : fr_ws1.
Lemma bq_puts_wsA m l s : wsA (fold_left (λ s b, bq_put b (heap_push bm_prio m (bq_get s b)) s) l s) = wsA s.
Proof. apply fold_left_proj; intros; try case_match; autorewrite with fr_wsA; done. Qed.
#[export] Hint Rewrite bq_puts_wsA : fr_wsA.
Lemma bq_puts_wrx m l s : wrx (fold_left (λ s b, bq_put b (heap_push bm_prio m (bq_get s b)) s) l s) = wrx s.
Proof. apply fold_left_proj; intros; try case_match; autorewrite with fr_wrx; done. Qed.
#[export] Hint Rewrite bq_puts_wrx : fr_wrx.
Lemma bq_puts_bqs m l s : bqs (fold_left (λ s b, bq_put b (heap_push bm_prio m (bq_get s b)) s) l s) = bqs s.
Proof. apply fold_left_proj; intros; try case_match; autorewrite with fr_bqs; done. Qed.
#[export] Hint Rewrite bq_puts_bqs : fr_bqs.
Lemma bq_puts_tail m l s : tail (fold_left (λ s b, bq_put b (heap_push bm_prio m (bq_get s b)) s) l s) = tail s.
Proof. apply fold_left_proj; intros; try case_match; autorewrite with fr_tail; done. Qed.
#[export] Hint Rewrite bq_puts_tail : fr_tail.
Lemma bq_puts_cells1 m l s : cells1 (fold_left (λ s b, bq_put b (heap_push bm_prio m (bq_get s b)) s) l s) = cells1 s.
Proof. apply fold_left_proj; intros; try case_match; autorewrite with fr_cells1; done. Qed.
#[export] Hint Rewrite bq_puts_cells1 : fr_cells1.
Lemma bq_puts_cellsA m l s : cellsA (fold_left (λ s b, bq_put b (heap_push bm_prio m (bq_get s b)) s) l s) = cellsA s.
Proof. apply fold_left_proj; intros; try case_match; autorewrite with fr_cellsA; done. Qed.
#[export] Hint Rewrite bq_puts_cellsA : fr_cellsA.
Lemma bq_puts_ones m l s : ones (fold_left (λ s b, bq_put b (heap_push bm_prio m (bq_get s b)) s) l s) = ones s.
Proof. apply fold_left_proj; intros; try case_match; autorewrite with fr_ones; done. Qed.
#[export] Hint Rewrite bq_puts_ones : fr_ones.
Lemma bq_puts_reps m l s : reps (fold_left (λ s b, bq_put b (heap_push bm_prio m (bq_get s b)) s) l s) = reps s.
Proof. apply fold_left_proj; intros; try case_match; autorewrite with fr_reps; done. Qed.
#[export] Hint Rewrite bq_puts_reps : fr_reps.
Lemma bq_puts_lsts m l s : lsts (fold_left (λ s b, bq_put b (heap_push bm_prio m (bq_get s b)) s) l s) = lsts s.
Proof. apply fold_left_proj; intros; try case_match; autorewrite with fr_lsts; done. Qed.
#[export] Hint Rewrite bq_puts_lsts : fr_lsts.
Lemma bq_puts_addrs m l s : addrs (fold_left (λ s b, bq_put b (heap_push bm_prio m (bq_get s b)) s) l s) = addrs s.
Proof. apply fold_left_proj; intros; try case_match; autorewrite with fr_addrs; done. Qed.
#[export] Hint Rewrite bq_puts_addrs : fr_addrs.
Lemma bq_puts_hols m l s : hols (fold_left (λ s b, bq_put b (heap_push bm_prio m (bq_get s b)) s) l s) = hols s.
Proof. apply fold_left_proj; intros; try case_match; autorewrite with fr_hols; done. Qed.
#[export] Hint Rewrite bq_puts_hols : fr_hols.
Lemma bq_puts_sfs m l s : sfs (fold_left (λ s b, bq_put b (heap_push bm_prio m (bq_get s b)) s) l s) = sfs s.
Proof. apply fold_left_proj; intros; try case_match; autorewrite with fr_sfs; done. Qed.
#[export] Hint Rewrite bq_puts_sfs : fr_sfs.
Lemma bq_puts_rcvs m l s : rcvs (fold_left (λ s b, bq_put b (heap_push bm_prio m (bq_get s b)) s) l s) = rcvs s.
Proof. apply fold_left_proj; intros; try case_match; autorewrite with fr_rcvs; done. Qed.
#[export] Hint Rewrite bq_puts_rcvs : fr_rcvs.
Lemma bq_puts_jhs m l s : jhs (fold_left (λ s b, bq_put b (heap_push bm_prio m (bq_get s b)) s) l s) = jhs s.
Proof. apply fold_left_proj; intros; try case_match; autorewrite with fr_jhs; done. Qed.
#[export] Hint Rewrite bq_puts_jhs : fr_jhs.
Lemma bq_puts_thr m l s : thr (fold_left (λ s b, bq_put b (heap_push bm_prio m (bq_get s b)) s) l s) = thr s.
Proof. apply fold_left_proj; intros; try case_match; autorewrite with fr_thr; done. Qed.
#[export] Hint Rewrite bq_puts_thr : fr_thr.
Lemma bq_puts_nbm m l s : nbm (fold_left (λ s b, bq_put b (heap_push bm_prio m (bq_get s b)) s) l s) = nbm s.
Proof. apply fold_left_proj; intros; try case_match; autorewrite with fr_nbm; done. Qed.
#[export] Hint Rewrite bq_puts_nbm : fr_nbm.
Lemma bq_puts_nwk m l s : nwk (fold_left (λ s b, bq_put b (heap_push bm_prio m (bq_get s b)) s) l s) = nwk s.
Proof. apply fold_left_proj; intros; try case_match; autorewrite with fr_nwk; done. Qed.
#[export] Hint Rewrite bq_puts_nwk : fr_nwk.
Lemma bq_puts_wakes m l s : wakes (fold_left (λ s b, bq_put b (heap_push bm_prio m (bq_get s b)) s) l s) = wakes s.
Proof. apply fold_left_proj; intros; try case_match; autorewrite with fr_wakes; done. Qed.
#[export] Hint Rewrite bq_puts_wakes : fr_wakes.
Lemma bq_puts_log m l s : log (fold_left (λ s b, bq_put b (heap_push bm_prio m (bq_get s b)) s) l s) = log s.
Proof. apply fold_left_proj; intros; try case_match; autorewrite with fr_log; done. Qed.
#[export] Hint Rewrite bq_puts_log : fr_log.

Lemma send_broadcast_cap m s : cap (send_broadcast m s) = cap s.
Proof. unfold send_broadcast; cbv zeta; repeat (progress (simpl; autorewrite with fr_cap)); done. Qed.
#[export] Hint Rewrite send_broadcast_cap : fr_cap.
Lemma send_broadcast_txc m s : txc (send_broadcast m s) = txc s.
Proof. unfold send_broadcast; cbv zeta; repeat (progress (simpl; autorewrite with fr_txc)); done. Qed.
#[export] Hint Rewrite send_broadcast_txc : fr_txc.
Lemma send_broadcast_rxc m s : rxc (send_broadcast m s) = rxc s.
Proof. unfold send_broadcast; cbv zeta; repeat (progress (simpl; autorewrite with fr_rxc)); done. Qed.
#[export] Hint Rewrite send_broadcast_rxc : fr_rxc.
Lemma send_broadcast_uq m s : uq (send_broadcast m s) = uq s.
Proof. unfold send_broadcast; cbv zeta; repeat (progress (simpl; autorewrite with fr_uq)); done. Qed.
#[export] Hint Rewrite send_broadcast_uq : fr_uq.
Lemma send_broadcast_ws1 m s : ws1 (send_broadcast m s) = ws1 s.
Proof. unfold send_broadcast; cbv zeta; repeat (progress (simpl; autorewrite with fr_ws1)); done. Qed.
#[export] Hint Rewrite send_broadcast_ws1 : fr_ws1.
Lemma send_broadcast_wsA m s : wsA (send_broadcast m s) = wsA s.
Proof. unfold send_broadcast; cbv zeta; repeat (progress (simpl; autorewrite with fr_wsA)); done. Qed.
#[export] Hint Rewrite send_broadcast_wsA : fr_wsA.
Lemma send_broadcast_cells1 m s : cells1 (send_broadcast m s) = cells1 s.
Proof. unfold send_broadcast; cbv zeta; repeat (progress (simpl; autorewrite with fr_cells1)); done. Qed.
#[export] Hint Rewrite send_broadcast_cells1 : fr_cells1.
Lemma send_broadcast_cellsA m s : cellsA (send_broadcast m s) = cellsA s.
Proof. unfold send_broadcast; cbv zeta; repeat (progress (simpl; autorewrite with fr_cellsA)); done. Qed.
#[export] Hint Rewrite send_broadcast_cellsA : fr_cellsA.
Lemma send_broadcast_reps m s : reps (send_broadcast m s) = reps s.
Proof. unfold send_broadcast; cbv zeta; repeat (progress (simpl; autorewrite with fr_reps)); done. Qed.
#[export] Hint Rewrite send_broadcast_reps : fr_reps.
Lemma send_broadcast_lsts m s : lsts (send_broadcast m s) = lsts s.
Proof. unfold send_broadcast; cbv zeta; repeat (progress (simpl; autorewrite with fr_lsts)); done. Qed.
#[export] Hint Rewrite send_broadcast_lsts : fr_lsts.
Lemma send_broadcast_addrs m s : addrs (send_broadcast m s) = addrs s.
Proof. unfold send_broadcast; cbv zeta; repeat (progress (simpl; autorewrite with fr_addrs)); done. Qed.
#[export] Hint Rewrite send_broadcast_addrs : fr_addrs.
Lemma send_broadcast_hols m s : hols (send_broadcast m s) = hols s.
Proof. unfold send_broadcast; cbv zeta; repeat (progress (simpl; autorewrite with fr_hols)); done. Qed.
#[export] Hint Rewrite send_broadcast_hols : fr_hols.
Lemma send_broadcast_sfs m s : sfs (send_broadcast m s) = sfs s.
Proof. unfold send_broadcast; cbv zeta; repeat (progress (simpl; autorewrite with fr_sfs)); done. Qed.
#[export] Hint Rewrite send_broadcast_sfs : fr_sfs.
Lemma send_broadcast_rcvs m s : rcvs (send_broadcast m s) = rcvs s.
Proof. unfold send_broadcast; cbv zeta; repeat (progress (simpl; autorewrite with fr_rcvs)); done. Qed.
#[export] Hint Rewrite send_broadcast_rcvs : fr_rcvs.
Lemma send_broadcast_jhs m s : jhs (send_broadcast m s) = jhs s.
Proof. unfold send_broadcast; cbv zeta; repeat (progress (simpl; autorewrite with fr_jhs)); done. Qed.
#[export] Hint Rewrite send_broadcast_jhs : fr_jhs.
Lemma send_broadcast_thr m s : thr (send_broadcast m s) = thr s.
Proof. unfold send_broadcast; cbv zeta; repeat (progress (simpl; autorewrite with fr_thr)); done. Qed.
#[export] Hint Rewrite send_broadcast_thr : fr_thr.
Lemma send_broadcast_nbm m s : nbm (send_broadcast m s) = nbm s.
Proof. unfold send_broadcast; cbv zeta; repeat (progress (simpl; autorewrite with fr_nbm)); done. Qed.
#[export] Hint Rewrite send_broadcast_nbm : fr_nbm.
Lemma send_broadcast_nwk m s : nwk (send_broadcast m s) = nwk s.
Proof. unfold send_broadcast; cbv zeta; repeat (progress (simpl; autorewrite with fr_nwk)); done. Qed.
#[export] Hint Rewrite send_broadcast_nwk : fr_nwk.

Lemma pop_broadcast_cap b s : cap (fst (pop_broadcast b s)) = cap s.
Proof. unfold pop_broadcast; destruct (heap_pop _ _) as [[??]|]; [|done]; cbv zeta; case_match; [simpl; autorewrite with fr_cap; done|]; match goal with |- context [take_waitingA ?x] => pose proof (take_waitingA_cap x) as HH; destruct (take_waitingA x) as [? [?|]] end; simpl in *; autorewrite with fr_cap in *; simpl in *; autorewrite with fr_cap in *; congruence. Qed.
#[export] Hint Rewrite pop_broadcast_cap : fr_cap.
Lemma pop_broadcast_txc b s : txc (fst (pop_broadcast b s)) = txc s.
Proof. unfold pop_broadcast; destruct (heap_pop _ _) as [[??]|]; [|done]; cbv zeta; case_match; [simpl; autorewrite with fr_txc; done|]; match goal with |- context [take_waitingA ?x] => pose proof (take_waitingA_txc x) as HH; destruct (take_waitingA x) as [? [?|]] end; simpl in *; autorewrite with fr_txc in *; simpl in *; autorewrite with fr_txc in *; congruence. Qed.
#[export] Hint Rewrite pop_broadcast_txc : fr_txc.
Lemma pop_broadcast_rxc b s : rxc (fst (pop_broadcast b s)) = rxc s.
Proof. unfold pop_broadcast; destruct (heap_pop _ _) as [[??]|]; [|done]; cbv zeta; case_match; [simpl; autorewrite with fr_rxc; done|]; match goal with |- context [take_waitingA ?x] => pose proof (take_waitingA_rxc x) as HH; destruct (take_waitingA x) as [? [?|]] end; simpl in *; autorewrite with fr_rxc in *; simpl in *; autorewrite with fr_rxc in *; congruence. Qed.
#[export] Hint Rewrite pop_broadcast_rxc : fr_rxc.
Lemma pop_broadcast_uq b s : uq (fst (pop_broadcast b s)) = uq s.
Proof. unfold pop_broadcast; destruct (heap_pop _ _) as [[??]|]; [|done]; cbv zeta; case_match; [simpl; autorewrite with fr_uq; done|]; match goal with |- context [take_waitingA ?x] => pose proof (take_waitingA_uq x) as HH; destruct (take_waitingA x) as [? [?|]] end; simpl in *; autorewrite with fr_uq in *; simpl in *; autorewrite with fr_uq in *; congruence. Qed.
#[export] Hint Rewrite pop_broadcast_uq : fr_uq.
Lemma pop_broadcast_ws1 b s : ws1 (fst (pop_broadcast b s)) = ws1 s.
Proof. unfold pop_broadcast; destruct (heap_pop _ _) as [[??]|]; [|done]; cbv zeta; case_match; [simpl; autorewrite with fr_ws1; done|]; match goal with |- context [take_waitingA ?x] => pose proof (take_waitingA_ws1 x) as HH; destruct (take_waitingA x) as [? [?|]] end; simpl in *; autorewrite with fr_ws1 in *; simpl in *; autorewrite with fr_ws1 in *; congruence. Qed.
#[export] Hint Rewrite pop_broadcast_ws1 : fr_ws1.
Lemma pop_broadcast_cells1 b s : cells1 (fst (pop_broadcast b s)) = cells1 s.
Proof. unfold pop_broadcast; destruct (heap_pop _ _) as [[??]|]; [|done]; cbv zeta; case_match; [simpl; autorewrite with fr_cells1; done|]; match goal with |- context [take_waitingA ?x] => pose proof (take_waitingA_cells1 x) as HH; destruct (take_waitingA x) as [? [?|]] end; simpl in *; autorewrite with fr_cells1 in *; simpl in *; autorewrite with fr_cells1 in *; congruence. Qed.
#[export] Hint Rewrite pop_broadcast_cells1 : fr_cells1.
Lemma pop_broadcast_reps b s : reps (fst (pop_broadcast b s)) = reps s.
Proof. unfold pop_broadcast; destruct (heap_pop _ _) as [[??]|]; [|done]; cbv zeta; case_match; [simpl; autorewrite with fr_reps; done|]; match goal with |- context [take_waitingA ?x] => pose proof (take_waitingA_reps x) as HH; destruct (take_waitingA x) as [? [?|]] end; simpl in *; autorewrite with fr_reps in *; simpl in *; autorewrite with fr_reps in *; congruence. Qed.
#[export] Hint Rewrite pop_broadcast_reps : fr_reps.
Lemma pop_broadcast_lsts b s : lsts (fst (pop_broadcast b s)) = lsts s.
Proof. unfold pop_broadcast; destruct (heap_pop _ _) as [[??]|]; [|done]; cbv zeta; case_match; [simpl; autorewrite with fr_lsts; done|]; match goal with |- context [take_waitingA ?x] => pose proof (take_waitingA_lsts x) as HH; destruct (take_waitingA x) as [? [?|]] end; simpl in *; autorewrite with fr_lsts in *; simpl in *; autorewrite with fr_lsts in *; congruence. Qed.
#[export] Hint Rewrite pop_broadcast_lsts : fr_lsts.
Lemma pop_broadcast_addrs b s : addrs (fst (pop_broadcast b s)) = addrs s.
Proof. unfold pop_broadcast; destruct (heap_pop _ _) as [[??]|]; [|done]; cbv zeta; case_match; [simpl; autorewrite with fr_addrs; done|]; match goal with |- context [take_waitingA ?x] => pose proof (take_waitingA_addrs x) as HH; destruct (take_waitingA x) as [? [?|]] end; simpl in *; autorewrite with fr_addrs in *; simpl in *; autorewrite with fr_addrs in *; congruence. Qed.
#[export] Hint Rewrite pop_broadcast_addrs : fr_addrs.
Lemma pop_broadcast_hols b s : hols (fst (pop_broadcast b s)) = hols s.
Proof. unfold pop_broadcast; destruct (heap_pop _ _) as [[??]|]; [|done]; cbv zeta; case_match; [simpl; autorewrite with fr_hols; done|]; match goal with |- context [take_waitingA ?x] => pose proof (take_waitingA_hols x) as HH; destruct (take_waitingA x) as [? [?|]] end; simpl in *; autorewrite with fr_hols in *; simpl in *; autorewrite with fr_hols in *; congruence. Qed.
#[export] Hint Rewrite pop_broadcast_hols : fr_hols.
Lemma pop_broadcast_sfs b s : sfs (fst (pop_broadcast b s)) = sfs s.
Proof. unfold pop_broadcast; destruct (heap_pop _ _) as [[??]|]; [|done]; cbv zeta; case_match; [simpl; autorewrite with fr_sfs; done|]; match goal with |- context [take_waitingA ?x] => pose proof (take_waitingA_sfs x) as HH; destruct (take_waitingA x) as [? [?|]] end; simpl in *; autorewrite with fr_sfs in *; simpl in *; autorewrite with fr_sfs in *; congruence. Qed.
#[export] Hint Rewrite pop_broadcast_sfs : fr_sfs.
Lemma pop_broadcast_rcvs b s : rcvs (fst (pop_broadcast b s)) = rcvs s.
Proof. unfold pop_broadcast; destruct (heap_pop _ _) as [[??]|]; [|done]; cbv zeta; case_match; [simpl; autorewrite with fr_rcvs; done|]; match goal with |- context [take_waitingA ?x] => pose proof (take_waitingA_rcvs x) as HH; destruct (take_waitingA x) as [? [?|]] end; simpl in *; autorewrite with fr_rcvs in *; simpl in *; autorewrite with fr_rcvs in *; congruence. Qed.
#[export] Hint Rewrite pop_broadcast_rcvs : fr_rcvs.
Lemma pop_broadcast_jhs b s : jhs (fst (pop_broadcast b s)) = jhs s.
Proof. unfold pop_broadcast; destruct (heap_pop _ _) as [[??]|]; [|done]; cbv zeta; case_match; [simpl; autorewrite with fr_jhs; done|]; match goal with |- context [take_waitingA ?x] => pose proof (take_waitingA_jhs x) as HH; destruct (take_waitingA x) as [? [?|]] end; simpl in *; autorewrite with fr_jhs in *; simpl in *; autorewrite with fr_jhs in *; congruence. Qed.
#[export] Hint Rewrite pop_broadcast_jhs : fr_jhs.
Lemma pop_broadcast_thr b s : thr (fst (pop_broadcast b s)) = thr s.
Proof. unfold pop_broadcast; destruct (heap_pop _ _) as [[??]|]; [|done]; cbv zeta; case_match; [simpl; autorewrite with fr_thr; done|]; match goal with |- context [take_waitingA ?x] => pose proof (take_waitingA_thr x) as HH; destruct (take_waitingA x) as [? [?|]] end; simpl in *; autorewrite with fr_thr in *; simpl in *; autorewrite with fr_thr in *; congruence. Qed.
#[export] Hint Rewrite pop_broadcast_thr : fr_thr.
Lemma pop_broadcast_nbm b s : nbm (fst (pop_broadcast b s)) = nbm s.
Proof. unfold pop_broadcast; destruct (heap_pop _ _) as [[??]|]; [|done]; cbv zeta; case_match; [simpl; autorewrite with fr_nbm; done|]; match goal with |- context [take_waitingA ?x] => pose proof (take_waitingA_nbm x) as HH; destruct (take_waitingA x) as [? [?|]] end; simpl in *; autorewrite with fr_nbm in *; simpl in *; autorewrite with fr_nbm in *; congruence. Qed.
#[export] Hint Rewrite pop_broadcast_nbm : fr_nbm.
Lemma pop_broadcast_nwk b s : nwk (fst (pop_broadcast b s)) = nwk s.
Proof. unfold pop_broadcast; destruct (heap_pop _ _) as [[??]|]; [|done]; cbv zeta; case_match; [simpl; autorewrite with fr_nwk; done|]; match goal with |- context [take_waitingA ?x] => pose proof (take_waitingA_nwk x) as HH; destruct (take_waitingA x) as [? [?|]] end; simpl in *; autorewrite with fr_nwk in *; simpl in *; autorewrite with fr_nwk in *; congruence. Qed.
#[export] Hint Rewrite pop_broadcast_nwk : fr_nwk.

Lemma set_hst_cap r x s : cap (set_hst r x s) = cap s.
Proof. unfold set_hst; repeat (case_match; simplify_eq/=); simpl; autorewrite with fr_cap; simpl; autorewrite with fr_cap; done. Qed.
#[export] Hint Rewrite set_hst_cap : fr_cap.
Lemma set_hst_txc r x s : txc (set_hst r x s) = txc s.
Proof. unfold set_hst; repeat (case_match; simplify_eq/=); simpl; autorewrite with fr_txc; simpl; autorewrite with fr_txc; done. Qed.
#[export] Hint Rewrite set_hst_txc : fr_txc.
Lemma set_hst_rxc r x s : rxc (set_hst r x s) = rxc s.
Proof. unfold set_hst; repeat (case_match; simplify_eq/=); simpl; autorewrite with fr_rxc; simpl; autorewrite with fr_rxc; done. Qed.
#[export] Hint Rewrite set_hst_rxc : fr_rxc.
Lemma set_hst_uq r x s : uq (set_hst r x s) = uq s.
Proof. unfold set_hst; repeat (case_match; simplify_eq/=); simpl; autorewrite with fr_uq; simpl; autorewrite with fr_uq; done. Qed.
#[export] Hint Rewrite set_hst_uq : fr_uq.
Lemma set_hst_ws1 r x s : ws1 (set_hst r x s) = ws1 s.
Proof. unfold set_hst; repeat (case_match; simplify_eq/=); simpl; autorewrite with fr_ws1; simpl; autorewrite with fr_ws1; done. Qed.
#[export] Hint Rewrite set_hst_ws1 : fr_ws1.
Lemma set_hst_wsA r x s : wsA (set_hst r x s) = wsA s.
Proof. unfold set_hst; repeat (case_match; simplify_eq/=); simpl; autorewrite with fr_wsA; simpl; autorewrite with fr_wsA; done. Qed.
#[export] Hint Rewrite set_hst_wsA : fr_wsA.
Lemma set_hst_wrx r x s : wrx (set_hst r x s) = wrx s.
Proof. unfold set_hst; repeat (case_match; simplify_eq/=); simpl; autorewrite with fr_wrx; simpl; autorewrite with fr_wrx; done. Qed.
#[export] Hint Rewrite set_hst_wrx : fr_wrx.
Lemma set_hst_bqs r x s : bqs (set_hst r x s) = bqs s.
Proof. unfold set_hst; repeat (case_match; simplify_eq/=); simpl; autorewrite with fr_bqs; simpl; autorewrite with fr_bqs; done. Qed.
#[export] Hint Rewrite set_hst_bqs : fr_bqs.
Lemma set_hst_tail r x s : tail (set_hst r x s) = tail s.
Proof. unfold set_hst; repeat (case_match; simplify_eq/=); simpl; autorewrite with fr_tail; simpl; autorewrite with fr_tail; done. Qed.
#[export] Hint Rewrite set_hst_tail : fr_tail.
Lemma set_hst_cells1 r x s : cells1 (set_hst r x s) = cells1 s.
Proof. unfold set_hst; repeat (case_match; simplify_eq/=); simpl; autorewrite with fr_cells1; simpl; autorewrite with fr_cells1; done. Qed.
#[export] Hint Rewrite set_hst_cells1 : fr_cells1.
Lemma set_hst_cellsA r x s : cellsA (set_hst r x s) = cellsA s.
Proof. unfold set_hst; repeat (case_match; simplify_eq/=); simpl; autorewrite with fr_cellsA; simpl; autorewrite with fr_cellsA; done. Qed.
#[export] Hint Rewrite set_hst_cellsA : fr_cellsA.
Lemma set_hst_ones r x s : ones (set_hst r x s) = ones s.
Proof. unfold set_hst; repeat (case_match; simplify_eq/=); simpl; autorewrite with fr_ones; simpl; autorewrite with fr_ones; done. Qed.
#[export] Hint Rewrite set_hst_ones : fr_ones.
Lemma set_hst_bqueues r x s : bqueues (set_hst r x s) = bqueues s.
Proof. unfold set_hst; repeat (case_match; simplify_eq/=); simpl; autorewrite with fr_bqueues; simpl; autorewrite with fr_bqueues; done. Qed.
#[export] Hint Rewrite set_hst_bqueues : fr_bqueues.
Lemma set_hst_reps r x s : reps (set_hst r x s) = reps s.
Proof. unfold set_hst; repeat (case_match; simplify_eq/=); simpl; autorewrite with fr_reps; simpl; autorewrite with fr_reps; done. Qed.
#[export] Hint Rewrite set_hst_reps : fr_reps.
Lemma set_hst_lsts r x s : lsts (set_hst r x s) = lsts s.
Proof. unfold set_hst; repeat (case_match; simplify_eq/=); simpl; autorewrite with fr_lsts; simpl; autorewrite with fr_lsts; done. Qed.
#[export] Hint Rewrite set_hst_lsts : fr_lsts.
Lemma set_hst_addrs r x s : addrs (set_hst r x s) = addrs s.
Proof. unfold set_hst; repeat (case_match; simplify_eq/=); simpl; autorewrite with fr_addrs; simpl; autorewrite with fr_addrs; done. Qed.
#[export] Hint Rewrite set_hst_addrs : fr_addrs.
Lemma set_hst_sfs r x s : sfs (set_hst r x s) = sfs s.
Proof. unfold set_hst; repeat (case_match; simplify_eq/=); simpl; autorewrite with fr_sfs; simpl; autorewrite with fr_sfs; done. Qed.
#[export] Hint Rewrite set_hst_sfs : fr_sfs.
Lemma set_hst_rcvs r x s : rcvs (set_hst r x s) = rcvs s.
Proof. unfold set_hst; repeat (case_match; simplify_eq/=); simpl; autorewrite with fr_rcvs; simpl; autorewrite with fr_rcvs; done. Qed.
#[export] Hint Rewrite set_hst_rcvs : fr_rcvs.
Lemma set_hst_jhs r x s : jhs (set_hst r x s) = jhs s.
Proof. unfold set_hst; repeat (case_match; simplify_eq/=); simpl; autorewrite with fr_jhs; simpl; autorewrite with fr_jhs; done. Qed.
#[export] Hint Rewrite set_hst_jhs : fr_jhs.
Lemma set_hst_thr r x s : thr (set_hst r x s) = thr s.
Proof. unfold set_hst; repeat (case_match; simplify_eq/=); simpl; autorewrite with fr_thr; simpl; autorewrite with fr_thr; done. Qed.
#[export] Hint Rewrite set_hst_thr : fr_thr.
Lemma set_hst_nbm r x s : nbm (set_hst r x s) = nbm s.
Proof. unfold set_hst; repeat (case_match; simplify_eq/=); simpl; autorewrite with fr_nbm; simpl; autorewrite with fr_nbm; done. Qed.
#[export] Hint Rewrite set_hst_nbm : fr_nbm.
Lemma set_hst_nwk r x s : nwk (set_hst r x s) = nwk s.
Proof. unfold set_hst; repeat (case_match; simplify_eq/=); simpl; autorewrite with fr_nwk; simpl; autorewrite with fr_nwk; done. Qed.
#[export] Hint Rewrite set_hst_nwk : fr_nwk.
Lemma set_hst_wakes r x s : wakes (set_hst r x s) = wakes s.
Proof. unfold set_hst; repeat (case_match; simplify_eq/=); simpl; autorewrite with fr_wakes; simpl; autorewrite with fr_wakes; done. Qed.
#[export] Hint Rewrite set_hst_wakes : fr_wakes.
Lemma set_hst_log r x s : log (set_hst r x s) = log s.
Proof. unfold set_hst; repeat (case_match; simplify_eq/=); simpl; autorewrite with fr_log; simpl; autorewrite with fr_log; done. Qed.
#[export] Hint Rewrite set_hst_log : fr_log.

Lemma set_sst_cap f x s : cap (set_sst f x s) = cap s.
Proof. unfold set_sst; repeat (case_match; simplify_eq/=); simpl; autorewrite with fr_cap; simpl; autorewrite with fr_cap; done. Qed.
#[export] Hint Rewrite set_sst_cap : fr_cap.
Lemma set_sst_txc f x s : txc (set_sst f x s) = txc s.
Proof. unfold set_sst; repeat (case_match; simplify_eq/=); simpl; autorewrite with fr_txc; simpl; autorewrite with fr_txc; done. Qed.
#[export] Hint Rewrite set_sst_txc : fr_txc.
Lemma set_sst_rxc f x s : rxc (set_sst f x s) = rxc s.
Proof. unfold set_sst; repeat (case_match; simplify_eq/=); simpl; autorewrite with fr_rxc; simpl; autorewrite with fr_rxc; done. Qed.
#[export] Hint Rewrite set_sst_rxc : fr_rxc.
Lemma set_sst_uq f x s : uq (set_sst f x s) = uq s.
Proof. unfold set_sst; repeat (case_match; simplify_eq/=); simpl; autorewrite with fr_uq; simpl; autorewrite with fr_uq; done. Qed.
#[export] Hint Rewrite set_sst_uq : fr_uq.
Lemma set_sst_ws1 f x s : ws1 (set_sst f x s) = ws1 s.
Proof. unfold set_sst; repeat (case_match; simplify_eq/=); simpl; autorewrite with fr_ws1; simpl; autorewrite with fr_ws1; done. Qed.
#[export] Hint Rewrite set_sst_ws1 : fr_ws1.
Lemma set_sst_wsA f x s : wsA (set_sst f x s) = wsA s.
Proof. unfold set_sst; repeat (case_match; simplify_eq/=); simpl; autorewrite with fr_wsA; simpl; autorewrite with fr_wsA; done. Qed.
#[export] Hint Rewrite set_sst_wsA : fr_wsA.
Lemma set_sst_wrx f x s : wrx (set_sst f x s) = wrx s.
Proof. unfold set_sst; repeat (case_match; simplify_eq/=); simpl; autorewrite with fr_wrx; simpl; autorewrite with fr_wrx; done. Qed.
#[export] Hint Rewrite set_sst_wrx : fr_wrx.
Lemma set_sst_bqs f x s : bqs (set_sst f x s) = bqs s.
Proof. unfold set_sst; repeat (case_match; simplify_eq/=); simpl; autorewrite with fr_bqs; simpl; autorewrite with fr_bqs; done. Qed.
#[export] Hint Rewrite set_sst_bqs : fr_bqs.
Lemma set_sst_tail f x s : tail (set_sst f x s) = tail s.
Proof. unfold set_sst; repeat (case_match; simplify_eq/=); simpl; autorewrite with fr_tail; simpl; autorewrite with fr_tail; done. Qed.
#[export] Hint Rewrite set_sst_tail : fr_tail.
Lemma set_sst_cells1 f x s : cells1 (set_sst f x s) = cells1 s.
Proof. unfold set_sst; repeat (case_match; simplify_eq/=); simpl; autorewrite with fr_cells1; simpl; autorewrite with fr_cells1; done. Qed.
#[export] Hint Rewrite set_sst_cells1 : fr_cells1.
Lemma set_sst_cellsA f x s : cellsA (set_sst f x s) = cellsA s.
Proof. unfold set_sst; repeat (case_match; simplify_eq/=); simpl; autorewrite with fr_cellsA; simpl; autorewrite with fr_cellsA; done. Qed.
#[export] Hint Rewrite set_sst_cellsA : fr_cellsA.
Lemma set_sst_ones f x s : ones (set_sst f x s) = ones s.
Proof. unfold set_sst; repeat (case_match; simplify_eq/=); simpl; autorewrite with fr_ones; simpl; autorewrite with fr_ones; done. Qed.
#[export] Hint Rewrite set_sst_ones : fr_ones.
Lemma set_sst_bqueues f x s : bqueues (set_sst f x s) = bqueues s.
Proof. unfold set_sst; repeat (case_match; simplify_eq/=); simpl; autorewrite with fr_bqueues; simpl; autorewrite with fr_bqueues; done. Qed.
#[export] Hint Rewrite set_sst_bqueues : fr_bqueues.
Lemma set_sst_reps f x s : reps (set_sst f x s) = reps s.
Proof. unfold set_sst; repeat (case_match; simplify_eq/=); simpl; autorewrite with fr_reps; simpl; autorewrite with fr_reps; done. Qed.
#[export] Hint Rewrite set_sst_reps : fr_reps.
Lemma set_sst_lsts f x s : lsts (set_sst f x s) = lsts s.
Proof. unfold set_sst; repeat (case_match; simplify_eq/=); simpl; autorewrite with fr_lsts; simpl; autorewrite with fr_lsts; done. Qed.
#[export] Hint Rewrite set_sst_lsts : fr_lsts.
Lemma set_sst_addrs f x s : addrs (set_sst f x s) = addrs s.
Proof. unfold set_sst; repeat (case_match; simplify_eq/=); simpl; autorewrite with fr_addrs; simpl; autorewrite with fr_addrs; done. Qed.
#[export] Hint Rewrite set_sst_addrs : fr_addrs.
Lemma set_sst_hols f x s : hols (set_sst f x s) = hols s.
Proof. unfold set_sst; repeat (case_match; simplify_eq/=); simpl; autorewrite with fr_hols; simpl; autorewrite with fr_hols; done. Qed.
#[export] Hint Rewrite set_sst_hols : fr_hols.
Lemma set_sst_rcvs f x s : rcvs (set_sst f x s) = rcvs s.
Proof. unfold set_sst; repeat (case_match; simplify_eq/=); simpl; autorewrite with fr_rcvs; simpl; autorewrite with fr_rcvs; done. Qed.
#[export] Hint Rewrite set_sst_rcvs : fr_rcvs.
Lemma set_sst_jhs f x s : jhs (set_sst f x s) = jhs s.
Proof. unfold set_sst; repeat (case_match; simplify_eq/=); simpl; autorewrite with fr_jhs; simpl; autorewrite with fr_jhs; done. Qed.
#[export] Hint Rewrite set_sst_jhs : fr_jhs.
Lemma set_sst_thr f x s : thr (set_sst f x s) = thr s.
Proof. unfold set_sst; repeat (case_match; simplify_eq/=); simpl; autorewrite with fr_thr; simpl; autorewrite with fr_thr; done. Qed.
#[export] Hint Rewrite set_sst_thr : fr_thr.
Lemma set_sst_nbm f x s : nbm (set_sst f x s) = nbm s.
Proof. unfold set_sst; repeat (case_match; simplify_eq/=); simpl; autorewrite with fr_nbm; simpl; autorewrite with fr_nbm; done. Qed.
#[export] Hint Rewrite set_sst_nbm : fr_nbm.
Lemma set_sst_nwk f x s : nwk (set_sst f x s) = nwk s.
Proof. unfold set_sst; repeat (case_match; simplify_eq/=); simpl; autorewrite with fr_nwk; simpl; autorewrite with fr_nwk; done. Qed.
#[export] Hint Rewrite set_sst_nwk : fr_nwk.
Lemma set_sst_wakes f x s : wakes (set_sst f x s) = wakes s.
Proof. unfold set_sst; repeat (case_match; simplify_eq/=); simpl; autorewrite with fr_wakes; simpl; autorewrite with fr_wakes; done. Qed.
#[export] Hint Rewrite set_sst_wakes : fr_wakes.
Lemma set_sst_log f x s : log (set_sst f x s) = log s.
Proof. unfold set_sst; repeat (case_match; simplify_eq/=); simpl; autorewrite with fr_log; simpl; autorewrite with fr_log; done. Qed.
#[export] Hint Rewrite set_sst_log : fr_log.

Lemma deliver_cap r a s : cap (deliver r a s) = cap s.
Proof. unfold deliver; repeat (case_match; simplify_eq/=); simpl; autorewrite with fr_cap; simpl; autorewrite with fr_cap; done. Qed.
#[export] Hint Rewrite deliver_cap : fr_cap.
Lemma deliver_txc r a s : txc (deliver r a s) = txc s.
Proof. unfold deliver; repeat (case_match; simplify_eq/=); simpl; autorewrite with fr_txc; simpl; autorewrite with fr_txc; done. Qed.
#[export] Hint Rewrite deliver_txc : fr_txc.
Lemma deliver_rxc r a s : rxc (deliver r a s) = rxc s.
Proof. unfold deliver; repeat (case_match; simplify_eq/=); simpl; autorewrite with fr_rxc; simpl; autorewrite with fr_rxc; done. Qed.
#[export] Hint Rewrite deliver_rxc : fr_rxc.
Lemma deliver_uq r a s : uq (deliver r a s) = uq s.
Proof. unfold deliver; repeat (case_match; simplify_eq/=); simpl; autorewrite with fr_uq; simpl; autorewrite with fr_uq; done. Qed.
#[export] Hint Rewrite deliver_uq : fr_uq.
Lemma deliver_ws1 r a s : ws1 (deliver r a s) = ws1 s.
Proof. unfold deliver; repeat (case_match; simplify_eq/=); simpl; autorewrite with fr_ws1; simpl; autorewrite with fr_ws1; done. Qed.
#[export] Hint Rewrite deliver_ws1 : fr_ws1.
Lemma deliver_wsA r a s : wsA (deliver r a s) = wsA s.
Proof. unfold deliver; repeat (case_match; simplify_eq/=); simpl; autorewrite with fr_wsA; simpl; autorewrite with fr_wsA; done. Qed.
#[export] Hint Rewrite deliver_wsA : fr_wsA.
Lemma deliver_wrx r a s : wrx (deliver r a s) = wrx s.
Proof. unfold deliver; repeat (case_match; simplify_eq/=); simpl; autorewrite with fr_wrx; simpl; autorewrite with fr_wrx; done. Qed.
#[export] Hint Rewrite deliver_wrx : fr_wrx.
Lemma deliver_bqs r a s : bqs (deliver r a s) = bqs s.
Proof. unfold deliver; repeat (case_match; simplify_eq/=); simpl; autorewrite with fr_bqs; simpl; autorewrite with fr_bqs; done. Qed.
#[export] Hint Rewrite deliver_bqs : fr_bqs.
Lemma deliver_tail r a s : tail (deliver r a s) = tail s.
Proof. unfold deliver; repeat (case_match; simplify_eq/=); simpl; autorewrite with fr_tail; simpl; autorewrite with fr_tail; done. Qed.
#[export] Hint Rewrite deliver_tail : fr_tail.
Lemma deliver_cells1 r a s : cells1 (deliver r a s) = cells1 s.
Proof. unfold deliver; repeat (case_match; simplify_eq/=); simpl; autorewrite with fr_cells1; simpl; autorewrite with fr_cells1; done. Qed.
#[export] Hint Rewrite deliver_cells1 : fr_cells1.
Lemma deliver_cellsA r a s : cellsA (deliver r a s) = cellsA s.
Proof. unfold deliver; repeat (case_match; simplify_eq/=); simpl; autorewrite with fr_cellsA; simpl; autorewrite with fr_cellsA; done. Qed.
#[export] Hint Rewrite deliver_cellsA : fr_cellsA.
Lemma deliver_ones r a s : ones (deliver r a s) = ones s.
Proof. unfold deliver; repeat (case_match; simplify_eq/=); simpl; autorewrite with fr_ones; simpl; autorewrite with fr_ones; done. Qed.
#[export] Hint Rewrite deliver_ones : fr_ones.
Lemma deliver_bqueues r a s : bqueues (deliver r a s) = bqueues s.
Proof. unfold deliver; repeat (case_match; simplify_eq/=); simpl; autorewrite with fr_bqueues; simpl; autorewrite with fr_bqueues; done. Qed.
#[export] Hint Rewrite deliver_bqueues : fr_bqueues.
Lemma deliver_reps r a s : reps (deliver r a s) = reps s.
Proof. unfold deliver; repeat (case_match; simplify_eq/=); simpl; autorewrite with fr_reps; simpl; autorewrite with fr_reps; done. Qed.
#[export] Hint Rewrite deliver_reps : fr_reps.
Lemma deliver_lsts r a s : lsts (deliver r a s) = lsts s.
Proof. unfold deliver; repeat (case_match; simplify_eq/=); simpl; autorewrite with fr_lsts; simpl; autorewrite with fr_lsts; done. Qed.
#[export] Hint Rewrite deliver_lsts : fr_lsts.
Lemma deliver_addrs r a s : addrs (deliver r a s) = addrs s.
Proof. unfold deliver; repeat (case_match; simplify_eq/=); simpl; autorewrite with fr_addrs; simpl; autorewrite with fr_addrs; done. Qed.
#[export] Hint Rewrite deliver_addrs : fr_addrs.
Lemma deliver_sfs r a s : sfs (deliver r a s) = sfs s.
Proof. unfold deliver; repeat (case_match; simplify_eq/=); simpl; autorewrite with fr_sfs; simpl; autorewrite with fr_sfs; done. Qed.
#[export] Hint Rewrite deliver_sfs : fr_sfs.
Lemma deliver_rcvs r a s : rcvs (deliver r a s) = rcvs s.
Proof. unfold deliver; repeat (case_match; simplify_eq/=); simpl; autorewrite with fr_rcvs; simpl; autorewrite with fr_rcvs; done. Qed.
#[export] Hint Rewrite deliver_rcvs : fr_rcvs.
Lemma deliver_jhs r a s : jhs (deliver r a s) = jhs s.
Proof. unfold deliver; repeat (case_match; simplify_eq/=); simpl; autorewrite with fr_jhs; simpl; autorewrite with fr_jhs; done. Qed.
#[export] Hint Rewrite deliver_jhs : fr_jhs.
Lemma deliver_thr r a s : thr (deliver r a s) = thr s.
Proof. unfold deliver; repeat (case_match; simplify_eq/=); simpl; autorewrite with fr_thr; simpl; autorewrite with fr_thr; done. Qed.
#[export] Hint Rewrite deliver_thr : fr_thr.
Lemma deliver_nbm r a s : nbm (deliver r a s) = nbm s.
Proof. unfold deliver; repeat (case_match; simplify_eq/=); simpl; autorewrite with fr_nbm; simpl; autorewrite with fr_nbm; done. Qed.
#[export] Hint Rewrite deliver_nbm : fr_nbm.
Lemma deliver_nwk r a s : nwk (deliver r a s) = nwk s.
Proof. unfold deliver; repeat (case_match; simplify_eq/=); simpl; autorewrite with fr_nwk; simpl; autorewrite with fr_nwk; done. Qed.
#[export] Hint Rewrite deliver_nwk : fr_nwk.
Lemma deliver_wakes r a s : wakes (deliver r a s) = wakes s.
Proof. unfold deliver; repeat (case_match; simplify_eq/=); simpl; autorewrite with fr_wakes; simpl; autorewrite with fr_wakes; done. Qed.
#[export] Hint Rewrite deliver_wakes : fr_wakes.

Lemma send_out_cap f x o s : cap (send_out f x o s) = cap s.
Proof. unfold send_out; repeat (case_match; simplify_eq/=); simpl; autorewrite with fr_cap; simpl; autorewrite with fr_cap; done. Qed.
#[export] Hint Rewrite send_out_cap : fr_cap.
Lemma send_out_txc f x o s : txc (send_out f x o s) = txc s.
Proof. unfold send_out; repeat (case_match; simplify_eq/=); simpl; autorewrite with fr_txc; simpl; autorewrite with fr_txc; done. Qed.
#[export] Hint Rewrite send_out_txc : fr_txc.
Lemma send_out_rxc f x o s : rxc (send_out f x o s) = rxc s.
Proof. unfold send_out; repeat (case_match; simplify_eq/=); simpl; autorewrite with fr_rxc; simpl; autorewrite with fr_rxc; done. Qed.
#[export] Hint Rewrite send_out_rxc : fr_rxc.
Lemma send_out_uq f x o s : uq (send_out f x o s) = uq s.
Proof. unfold send_out; repeat (case_match; simplify_eq/=); simpl; autorewrite with fr_uq; simpl; autorewrite with fr_uq; done. Qed.
#[export] Hint Rewrite send_out_uq : fr_uq.
Lemma send_out_ws1 f x o s : ws1 (send_out f x o s) = ws1 s.
Proof. unfold send_out; repeat (case_match; simplify_eq/=); simpl; autorewrite with fr_ws1; simpl; autorewrite with fr_ws1; done. Qed.
#[export] Hint Rewrite send_out_ws1 : fr_ws1.
Lemma send_out_wsA f x o s : wsA (send_out f x o s) = wsA s.
Proof. unfold send_out; repeat (case_match; simplify_eq/=); simpl; autorewrite with fr_wsA; simpl; autorewrite with fr_wsA; done. Qed.
#[export] Hint Rewrite send_out_wsA : fr_wsA.
Lemma send_out_wrx f x o s : wrx (send_out f x o s) = wrx s.
Proof. unfold send_out; repeat (case_match; simplify_eq/=); simpl; autorewrite with fr_wrx; simpl; autorewrite with fr_wrx; done. Qed.
#[export] Hint Rewrite send_out_wrx : fr_wrx.
Lemma send_out_bqs f x o s : bqs (send_out f x o s) = bqs s.
Proof. unfold send_out; repeat (case_match; simplify_eq/=); simpl; autorewrite with fr_bqs; simpl; autorewrite with fr_bqs; done. Qed.
#[export] Hint Rewrite send_out_bqs : fr_bqs.
Lemma send_out_tail f x o s : tail (send_out f x o s) = tail s.
Proof. unfold send_out; repeat (case_match; simplify_eq/=); simpl; autorewrite with fr_tail; simpl; autorewrite with fr_tail; done. Qed.
#[export] Hint Rewrite send_out_tail : fr_tail.
Lemma send_out_cells1 f x o s : cells1 (send_out f x o s) = cells1 s.
Proof. unfold send_out; repeat (case_match; simplify_eq/=); simpl; autorewrite with fr_cells1; simpl; autorewrite with fr_cells1; done. Qed.
#[export] Hint Rewrite send_out_cells1 : fr_cells1.
Lemma send_out_cellsA f x o s : cellsA (send_out f x o s) = cellsA s.
Proof. unfold send_out; repeat (case_match; simplify_eq/=); simpl; autorewrite with fr_cellsA; simpl; autorewrite with fr_cellsA; done. Qed.
#[export] Hint Rewrite send_out_cellsA : fr_cellsA.
Lemma send_out_ones f x o s : ones (send_out f x o s) = ones s.
Proof. unfold send_out; repeat (case_match; simplify_eq/=); simpl; autorewrite with fr_ones; simpl; autorewrite with fr_ones; done. Qed.
#[export] Hint Rewrite send_out_ones : fr_ones.
Lemma send_out_bqueues f x o s : bqueues (send_out f x o s) = bqueues s.
Proof. unfold send_out; repeat (case_match; simplify_eq/=); simpl; autorewrite with fr_bqueues; simpl; autorewrite with fr_bqueues; done. Qed.
#[export] Hint Rewrite send_out_bqueues : fr_bqueues.
Lemma send_out_reps f x o s : reps (send_out f x o s) = reps s.
Proof. unfold send_out; repeat (case_match; simplify_eq/=); simpl; autorewrite with fr_reps; simpl; autorewrite with fr_reps; done. Qed.
#[export] Hint Rewrite send_out_reps : fr_reps.
Lemma send_out_lsts f x o s : lsts (send_out f x o s) = lsts s.
Proof. unfold send_out; repeat (case_match; simplify_eq/=); simpl; autorewrite with fr_lsts; simpl; autorewrite with fr_lsts; done. Qed.
#[export] Hint Rewrite send_out_lsts : fr_lsts.
Lemma send_out_addrs f x o s : addrs (send_out f x o s) = addrs s.
Proof. unfold send_out; repeat (case_match; simplify_eq/=); simpl; autorewrite with fr_addrs; simpl; autorewrite with fr_addrs; done. Qed.
#[export] Hint Rewrite send_out_addrs : fr_addrs.
Lemma send_out_hols f x o s : hols (send_out f x o s) = hols s.
Proof. unfold send_out; repeat (case_match; simplify_eq/=); simpl; autorewrite with fr_hols; simpl; autorewrite with fr_hols; done. Qed.
#[export] Hint Rewrite send_out_hols : fr_hols.
Lemma send_out_rcvs f x o s : rcvs (send_out f x o s) = rcvs s.
Proof. unfold send_out; repeat (case_match; simplify_eq/=); simpl; autorewrite with fr_rcvs; simpl; autorewrite with fr_rcvs; done. Qed.
#[export] Hint Rewrite send_out_rcvs : fr_rcvs.
Lemma send_out_jhs f x o s : jhs (send_out f x o s) = jhs s.
Proof. unfold send_out; repeat (case_match; simplify_eq/=); simpl; autorewrite with fr_jhs; simpl; autorewrite with fr_jhs; done. Qed.
#[export] Hint Rewrite send_out_jhs : fr_jhs.
Lemma send_out_thr f x o s : thr (send_out f x o s) = thr s.
Proof. unfold send_out; repeat (case_match; simplify_eq/=); simpl; autorewrite with fr_thr; simpl; autorewrite with fr_thr; done. Qed.
#[export] Hint Rewrite send_out_thr : fr_thr.
Lemma send_out_nbm f x o s : nbm (send_out f x o s) = nbm s.
Proof. unfold send_out; repeat (case_match; simplify_eq/=); simpl; autorewrite with fr_nbm; simpl; autorewrite with fr_nbm; done. Qed.
#[export] Hint Rewrite send_out_nbm : fr_nbm.
Lemma send_out_nwk f x o s : nwk (send_out f x o s) = nwk s.
Proof. unfold send_out; repeat (case_match; simplify_eq/=); simpl; autorewrite with fr_nwk; simpl; autorewrite with fr_nwk; done. Qed.
#[export] Hint Rewrite send_out_nwk : fr_nwk.
Lemma send_out_wakes f x o s : wakes (send_out f x o s) = wakes s.
Proof. unfold send_out; repeat (case_match; simplify_eq/=); simpl; autorewrite with fr_wakes; simpl; autorewrite with fr_wakes; done. Qed.
#[export] Hint Rewrite send_out_wakes : fr_wakes.

Lemma poll_reply_cap m w s : cap (fst (poll_reply m w s)) = cap s.
Proof. unfold poll_reply; repeat (case_match; simplify_eq/=); simpl; autorewrite with fr_cap; simpl; autorewrite with fr_cap; done. Qed.
#[export] Hint Rewrite poll_reply_cap : fr_cap.
Lemma poll_reply_txc m w s : txc (fst (poll_reply m w s)) = txc s.
Proof. unfold poll_reply; repeat (case_match; simplify_eq/=); simpl; autorewrite with fr_txc; simpl; autorewrite with fr_txc; done. Qed.
#[export] Hint Rewrite poll_reply_txc : fr_txc.
Lemma poll_reply_rxc m w s : rxc (fst (poll_reply m w s)) = rxc s.
Proof. unfold poll_reply; repeat (case_match; simplify_eq/=); simpl; autorewrite with fr_rxc; simpl; autorewrite with fr_rxc; done. Qed.
#[export] Hint Rewrite poll_reply_rxc : fr_rxc.
Lemma poll_reply_uq m w s : uq (fst (poll_reply m w s)) = uq s.
Proof. unfold poll_reply; repeat (case_match; simplify_eq/=); simpl; autorewrite with fr_uq; simpl; autorewrite with fr_uq; done. Qed.
#[export] Hint Rewrite poll_reply_uq : fr_uq.
Lemma poll_reply_ws1 m w s : ws1 (fst (poll_reply m w s)) = ws1 s.
Proof. unfold poll_reply; repeat (case_match; simplify_eq/=); simpl; autorewrite with fr_ws1; simpl; autorewrite with fr_ws1; done. Qed.
#[export] Hint Rewrite poll_reply_ws1 : fr_ws1.
Lemma poll_reply_wsA m w s : wsA (fst (poll_reply m w s)) = wsA s.
Proof. unfold poll_reply; repeat (case_match; simplify_eq/=); simpl; autorewrite with fr_wsA; simpl; autorewrite with fr_wsA; done. Qed.
#[export] Hint Rewrite poll_reply_wsA : fr_wsA.
Lemma poll_reply_wrx m w s : wrx (fst (poll_reply m w s)) = wrx s.
Proof. unfold poll_reply; repeat (case_match; simplify_eq/=); simpl; autorewrite with fr_wrx; simpl; autorewrite with fr_wrx; done. Qed.
#[export] Hint Rewrite poll_reply_wrx : fr_wrx.
Lemma poll_reply_bqs m w s : bqs (fst (poll_reply m w s)) = bqs s.
Proof. unfold poll_reply; repeat (case_match; simplify_eq/=); simpl; autorewrite with fr_bqs; simpl; autorewrite with fr_bqs; done. Qed.
#[export] Hint Rewrite poll_reply_bqs : fr_bqs.
Lemma poll_reply_tail m w s : tail (fst (poll_reply m w s)) = tail s.
Proof. unfold poll_reply; repeat (case_match; simplify_eq/=); simpl; autorewrite with fr_tail; simpl; autorewrite with fr_tail; done. Qed.
#[export] Hint Rewrite poll_reply_tail : fr_tail.
Lemma poll_reply_cells1 m w s : cells1 (fst (poll_reply m w s)) = cells1 s.
Proof. unfold poll_reply; repeat (case_match; simplify_eq/=); simpl; autorewrite with fr_cells1; simpl; autorewrite with fr_cells1; done. Qed.
#[export] Hint Rewrite poll_reply_cells1 : fr_cells1.
Lemma poll_reply_cellsA m w s : cellsA (fst (poll_reply m w s)) = cellsA s.
Proof. unfold poll_reply; repeat (case_match; simplify_eq/=); simpl; autorewrite with fr_cellsA; simpl; autorewrite with fr_cellsA; done. Qed.
#[export] Hint Rewrite poll_reply_cellsA : fr_cellsA.
Lemma poll_reply_ones m w s : ones (fst (poll_reply m w s)) = ones s.
Proof. unfold poll_reply; repeat (case_match; simplify_eq/=); simpl; autorewrite with fr_ones; simpl; autorewrite with fr_ones; done. Qed.
#[export] Hint Rewrite poll_reply_ones : fr_ones.
Lemma poll_reply_bqueues m w s : bqueues (fst (poll_reply m w s)) = bqueues s.
Proof. unfold poll_reply; repeat (case_match; simplify_eq/=); simpl; autorewrite with fr_bqueues; simpl; autorewrite with fr_bqueues; done. Qed.
#[export] Hint Rewrite poll_reply_bqueues : fr_bqueues.
Lemma poll_reply_lsts m w s : lsts (fst (poll_reply m w s)) = lsts s.
Proof. unfold poll_reply; repeat (case_match; simplify_eq/=); simpl; autorewrite with fr_lsts; simpl; autorewrite with fr_lsts; done. Qed.
#[export] Hint Rewrite poll_reply_lsts : fr_lsts.
Lemma poll_reply_addrs m w s : addrs (fst (poll_reply m w s)) = addrs s.
Proof. unfold poll_reply; repeat (case_match; simplify_eq/=); simpl; autorewrite with fr_addrs; simpl; autorewrite with fr_addrs; done. Qed.
#[export] Hint Rewrite poll_reply_addrs : fr_addrs.
Lemma poll_reply_hols m w s : hols (fst (poll_reply m w s)) = hols s.
Proof. unfold poll_reply; repeat (case_match; simplify_eq/=); simpl; autorewrite with fr_hols; simpl; autorewrite with fr_hols; done. Qed.
#[export] Hint Rewrite poll_reply_hols : fr_hols.
Lemma poll_reply_sfs m w s : sfs (fst (poll_reply m w s)) = sfs s.
Proof. unfold poll_reply; repeat (case_match; simplify_eq/=); simpl; autorewrite with fr_sfs; simpl; autorewrite with fr_sfs; done. Qed.
#[export] Hint Rewrite poll_reply_sfs : fr_sfs.
Lemma poll_reply_rcvs m w s : rcvs (fst (poll_reply m w s)) = rcvs s.
Proof. unfold poll_reply; repeat (case_match; simplify_eq/=); simpl; autorewrite with fr_rcvs; simpl; autorewrite with fr_rcvs; done. Qed.
#[export] Hint Rewrite poll_reply_rcvs : fr_rcvs.
Lemma poll_reply_jhs m w s : jhs (fst (poll_reply m w s)) = jhs s.
Proof. unfold poll_reply; repeat (case_match; simplify_eq/=); simpl; autorewrite with fr_jhs; simpl; autorewrite with fr_jhs; done. Qed.
#[export] Hint Rewrite poll_reply_jhs : fr_jhs.
Lemma poll_reply_thr m w s : thr (fst (poll_reply m w s)) = thr s.
Proof. unfold poll_reply; repeat (case_match; simplify_eq/=); simpl; autorewrite with fr_thr; simpl; autorewrite with fr_thr; done. Qed.
#[export] Hint Rewrite poll_reply_thr : fr_thr.
Lemma poll_reply_nbm m w s : nbm (fst (poll_reply m w s)) = nbm s.
Proof. unfold poll_reply; repeat (case_match; simplify_eq/=); simpl; autorewrite with fr_nbm; simpl; autorewrite with fr_nbm; done. Qed.
#[export] Hint Rewrite poll_reply_nbm : fr_nbm.
Lemma poll_reply_nwk m w s : nwk (fst (poll_reply m w s)) = nwk s.
Proof. unfold poll_reply; repeat (case_match; simplify_eq/=); simpl; autorewrite with fr_nwk; simpl; autorewrite with fr_nwk; done. Qed.
#[export] Hint Rewrite poll_reply_nwk : fr_nwk.
Lemma poll_reply_wakes m w s : wakes (fst (poll_reply m w s)) = wakes s.
Proof. unfold poll_reply; repeat (case_match; simplify_eq/=); simpl; autorewrite with fr_wakes; simpl; autorewrite with fr_wakes; done. Qed.
#[export] Hint Rewrite poll_reply_wakes : fr_wakes.
Lemma poll_reply_log m w s : log (fst (poll_reply m w s)) = log s.
Proof. unfold poll_reply; repeat (case_match; simplify_eq/=); simpl; autorewrite with fr_log; simpl; autorewrite with fr_log; done. Qed.
#[export] Hint Rewrite poll_reply_log : fr_log.

Lemma wake_lsts_cap l s : cap (fold_left (λ s l, if ls_notified l then s else wake (ls_wk l) s) l s) = cap s.
Proof. apply fold_left_proj; intros; try case_match; autorewrite with fr_cap; done. Qed.
#[export] Hint Rewrite wake_lsts_cap : fr_cap.
Lemma wake_lsts_txc l s : txc (fold_left (λ s l, if ls_notified l then s else wake (ls_wk l) s) l s) = txc s.
Proof. apply fold_left_proj; intros; try case_match; autorewrite with fr_txc; done. Qed.
#[export] Hint Rewrite wake_lsts_txc : fr_txc.
Lemma wake_lsts_rxc l s : rxc (fold_left (λ s l, if ls_notified l then s else wake (ls_wk l) s) l s) = rxc s.
Proof. apply fold_left_proj; intros; try case_match; autorewrite with fr_rxc; done. Qed.
#[export] Hint Rewrite wake_lsts_rxc : fr_rxc.
Lemma wake_lsts_uq l s : uq (fold_left (λ s l, if ls_notified l then s else wake (ls_wk l) s) l s) = uq s.
Proof. apply fold_left_proj; intros; try case_match; autorewrite with fr_uq; done. Qed.
#[export] Hint Rewrite wake_lsts_uq : fr_uq.
Lemma wake_lsts_ws1 l s : ws1 (fold_left (λ s l, if ls_notified l then s else wake (ls_wk l) s) l s) = ws1 s.
Proof. apply fold_left_proj; intros; try case_match; autorewrite with fr_ws1; done. Qed.
#[export] Hint Rewrite wake_lsts_ws1 : fr_ws1.
Lemma wake_lsts_wsA l s : wsA (fold_left (λ s l, if ls_notified l then s else wake (ls_wk l) s) l s) = wsA s.
Proof. apply fold_left_proj; intros; try case_match; autorewrite with fr_wsA; done. Qed.
#[export] Hint Rewrite wake_lsts_wsA : fr_wsA.
Lemma wake_lsts_wrx l s : wrx (fold_left (λ s l, if ls_notified l then s else wake (ls_wk l) s) l s) = wrx s.
Proof. apply fold_left_proj; intros; try case_match; autorewrite with fr_wrx; done. Qed.
#[export] Hint Rewrite wake_lsts_wrx : fr_wrx.
Lemma wake_lsts_bqs l s : bqs (fold_left (λ s l, if ls_notified l then s else wake (ls_wk l) s) l s) = bqs s.
Proof. apply fold_left_proj; intros; try case_match; autorewrite with fr_bqs; done. Qed.
#[export] Hint Rewrite wake_lsts_bqs : fr_bqs.
Lemma wake_lsts_tail l s : tail (fold_left (λ s l, if ls_notified l then s else wake (ls_wk l) s) l s) = tail s.
Proof. apply fold_left_proj; intros; try case_match; autorewrite with fr_tail; done. Qed.
#[export] Hint Rewrite wake_lsts_tail : fr_tail.
Lemma wake_lsts_cells1 l s : cells1 (fold_left (λ s l, if ls_notified l then s else wake (ls_wk l) s) l s) = cells1 s.
Proof. apply fold_left_proj; intros; try case_match; autorewrite with fr_cells1; done. Qed.
#[export] Hint Rewrite wake_lsts_cells1 : fr_cells1.
Lemma wake_lsts_cellsA l s : cellsA (fold_left (λ s l, if ls_notified l then s else wake (ls_wk l) s) l s) = cellsA s.
Proof. apply fold_left_proj; intros; try case_match; autorewrite with fr_cellsA; done. Qed.
#[export] Hint Rewrite wake_lsts_cellsA : fr_cellsA.
Lemma wake_lsts_ones l s : ones (fold_left (λ s l, if ls_notified l then s else wake (ls_wk l) s) l s) = ones s.
Proof. apply fold_left_proj; intros; try case_match; autorewrite with fr_ones; done. Qed.
#[export] Hint Rewrite wake_lsts_ones : fr_ones.
Lemma wake_lsts_bqueues l s : bqueues (fold_left (λ s l, if ls_notified l then s else wake (ls_wk l) s) l s) = bqueues s.
Proof. apply fold_left_proj; intros; try case_match; autorewrite with fr_bqueues; done. Qed.
#[export] Hint Rewrite wake_lsts_bqueues : fr_bqueues.
Lemma wake_lsts_reps l s : reps (fold_left (λ s l, if ls_notified l then s else wake (ls_wk l) s) l s) = reps s.
Proof. apply fold_left_proj; intros; try case_match; autorewrite with fr_reps; done. Qed.
#[export] Hint Rewrite wake_lsts_reps : fr_reps.
Lemma wake_lsts_lsts l s : lsts (fold_left (λ s l, if ls_notified l then s else wake (ls_wk l) s) l s) = lsts s.
Proof. apply fold_left_proj; intros; try case_match; autorewrite with fr_lsts; done. Qed.
#[export] Hint Rewrite wake_lsts_lsts : fr_lsts.
Lemma wake_lsts_addrs l s : addrs (fold_left (λ s l, if ls_notified l then s else wake (ls_wk l) s) l s) = addrs s.
Proof. apply fold_left_proj; intros; try case_match; autorewrite with fr_addrs; done. Qed.
#[export] Hint Rewrite wake_lsts_addrs : fr_addrs.
Lemma wake_lsts_hols l s : hols (fold_left (λ s l, if ls_notified l then s else wake (ls_wk l) s) l s) = hols s.
Proof. apply fold_left_proj; intros; try case_match; autorewrite with fr_hols; done. Qed.
#[export] Hint Rewrite wake_lsts_hols : fr_hols.
Lemma wake_lsts_sfs l s : sfs (fold_left (λ s l, if ls_notified l then s else wake (ls_wk l) s) l s) = sfs s.
Proof. apply fold_left_proj; intros; try case_match; autorewrite with fr_sfs; done. Qed.
#[export] Hint Rewrite wake_lsts_sfs : fr_sfs.
Lemma wake_lsts_rcvs l s : rcvs (fold_left (λ s l, if ls_notified l then s else wake (ls_wk l) s) l s) = rcvs s.
Proof. apply fold_left_proj; intros; try case_match; autorewrite with fr_rcvs; done. Qed.
#[export] Hint Rewrite wake_lsts_rcvs : fr_rcvs.
Lemma wake_lsts_jhs l s : jhs (fold_left (λ s l, if ls_notified l then s else wake (ls_wk l) s) l s) = jhs s.
Proof. apply fold_left_proj; intros; try case_match; autorewrite with fr_jhs; done. Qed.
#[export] Hint Rewrite wake_lsts_jhs : fr_jhs.
Lemma wake_lsts_thr l s : thr (fold_left (λ s l, if ls_notified l then s else wake (ls_wk l) s) l s) = thr s.
Proof. apply fold_left_proj; intros; try case_match; autorewrite with fr_thr; done. Qed.
#[export] Hint Rewrite wake_lsts_thr : fr_thr.
Lemma wake_lsts_nbm l s : nbm (fold_left (λ s l, if ls_notified l then s else wake (ls_wk l) s) l s) = nbm s.
Proof. apply fold_left_proj; intros; try case_match; autorewrite with fr_nbm; done. Qed.
#[export] Hint Rewrite wake_lsts_nbm : fr_nbm.
Lemma wake_lsts_nwk l s : nwk (fold_left (λ s l, if ls_notified l then s else wake (ls_wk l) s) l s) = nwk s.
Proof. apply fold_left_proj; intros; try case_match; autorewrite with fr_nwk; done. Qed.
#[export] Hint Rewrite wake_lsts_nwk : fr_nwk.
Lemma wake_lsts_log l s : log (fold_left (λ s l, if ls_notified l then s else wake (ls_wk l) s) l s) = log s.
Proof. apply fold_left_proj; intros; try case_match; autorewrite with fr_log; done. Qed.
#[export] Hint Rewrite wake_lsts_log : fr_log.

Lemma exec_rx_shutdown_cap s : cap (exec_rx_shutdown s) = cap s.
Proof. unfold exec_rx_shutdown; cbv zeta; repeat (progress (simpl; autorewrite with fr_cap)); done. Qed.
#[export] Hint Rewrite exec_rx_shutdown_cap : fr_cap.
Lemma exec_rx_shutdown_txc s : txc (exec_rx_shutdown s) = txc s.
Proof. unfold exec_rx_shutdown; cbv zeta; repeat (progress (simpl; autorewrite with fr_txc)); done. Qed.
#[export] Hint Rewrite exec_rx_shutdown_txc : fr_txc.
Lemma exec_rx_shutdown_rxc s : rxc (exec_rx_shutdown s) = rxc s.
Proof. unfold exec_rx_shutdown; cbv zeta; repeat (progress (simpl; autorewrite with fr_rxc)); done. Qed.
#[export] Hint Rewrite exec_rx_shutdown_rxc : fr_rxc.
Lemma exec_rx_shutdown_wrx s : wrx (exec_rx_shutdown s) = wrx s.
Proof. unfold exec_rx_shutdown; cbv zeta; repeat (progress (simpl; autorewrite with fr_wrx)); done. Qed.
#[export] Hint Rewrite exec_rx_shutdown_wrx : fr_wrx.
Lemma exec_rx_shutdown_tail s : tail (exec_rx_shutdown s) = tail s.
Proof. unfold exec_rx_shutdown; cbv zeta; repeat (progress (simpl; autorewrite with fr_tail)); done. Qed.
#[export] Hint Rewrite exec_rx_shutdown_tail : fr_tail.
Lemma exec_rx_shutdown_ones s : ones (exec_rx_shutdown s) = ones s.
Proof. unfold exec_rx_shutdown; cbv zeta; repeat (progress (simpl; autorewrite with fr_ones)); done. Qed.
#[export] Hint Rewrite exec_rx_shutdown_ones : fr_ones.
Lemma exec_rx_shutdown_bqueues s : bqueues (exec_rx_shutdown s) = bqueues s.
Proof. unfold exec_rx_shutdown; cbv zeta; repeat (progress (simpl; autorewrite with fr_bqueues)); done. Qed.
#[export] Hint Rewrite exec_rx_shutdown_bqueues : fr_bqueues.
Lemma exec_rx_shutdown_addrs s : addrs (exec_rx_shutdown s) = addrs s.
Proof. unfold exec_rx_shutdown; cbv zeta; repeat (progress (simpl; autorewrite with fr_addrs)); done. Qed.
#[export] Hint Rewrite exec_rx_shutdown_addrs : fr_addrs.
Lemma exec_rx_shutdown_hols s : hols (exec_rx_shutdown s) = hols s.
Proof. unfold exec_rx_shutdown; cbv zeta; repeat (progress (simpl; autorewrite with fr_hols)); done. Qed.
#[export] Hint Rewrite exec_rx_shutdown_hols : fr_hols.
Lemma exec_rx_shutdown_sfs s : sfs (exec_rx_shutdown s) = sfs s.
Proof. unfold exec_rx_shutdown; cbv zeta; repeat (progress (simpl; autorewrite with fr_sfs)); done. Qed.
#[export] Hint Rewrite exec_rx_shutdown_sfs : fr_sfs.
Lemma exec_rx_shutdown_rcvs s : rcvs (exec_rx_shutdown s) = rcvs s.
Proof. unfold exec_rx_shutdown; cbv zeta; repeat (progress (simpl; autorewrite with fr_rcvs)); done. Qed.
#[export] Hint Rewrite exec_rx_shutdown_rcvs : fr_rcvs.
Lemma exec_rx_shutdown_jhs s : jhs (exec_rx_shutdown s) = jhs s.
Proof. unfold exec_rx_shutdown; cbv zeta; repeat (progress (simpl; autorewrite with fr_jhs)); done. Qed.
#[export] Hint Rewrite exec_rx_shutdown_jhs : fr_jhs.
Lemma exec_rx_shutdown_thr s : thr (exec_rx_shutdown s) = thr s.
Proof. unfold exec_rx_shutdown; cbv zeta; repeat (progress (simpl; autorewrite with fr_thr)); done. Qed.
#[export] Hint Rewrite exec_rx_shutdown_thr : fr_thr.
Lemma exec_rx_shutdown_nbm s : nbm (exec_rx_shutdown s) = nbm s.
Proof. unfold exec_rx_shutdown; cbv zeta; repeat (progress (simpl; autorewrite with fr_nbm)); done. Qed.
#[export] Hint Rewrite exec_rx_shutdown_nbm : fr_nbm.
Lemma exec_rx_shutdown_nwk s : nwk (exec_rx_shutdown s) = nwk s.
Proof. unfold exec_rx_shutdown; cbv zeta; repeat (progress (simpl; autorewrite with fr_nwk)); done. Qed.
#[export] Hint Rewrite exec_rx_shutdown_nwk : fr_nwk.

Lemma free_chan_cap s : cap (free_chan s) = cap s.
Proof. unfold free_chan; cbv zeta; repeat (progress (simpl; autorewrite with fr_cap)); done. Qed.
#[export] Hint Rewrite free_chan_cap : fr_cap.
Lemma free_chan_txc s : txc (free_chan s) = txc s.
Proof. unfold free_chan; cbv zeta; repeat (progress (simpl; autorewrite with fr_txc)); done. Qed.
#[export] Hint Rewrite free_chan_txc : fr_txc.
Lemma free_chan_rxc s : rxc (free_chan s) = rxc s.
Proof. unfold free_chan; cbv zeta; repeat (progress (simpl; autorewrite with fr_rxc)); done. Qed.
#[export] Hint Rewrite free_chan_rxc : fr_rxc.
Lemma free_chan_tail s : tail (free_chan s) = tail s.
Proof. unfold free_chan; cbv zeta; repeat (progress (simpl; autorewrite with fr_tail)); done. Qed.
#[export] Hint Rewrite free_chan_tail : fr_tail.
Lemma free_chan_bqueues s : bqueues (free_chan s) = bqueues s.
Proof. unfold free_chan; cbv zeta; repeat (progress (simpl; autorewrite with fr_bqueues)); done. Qed.
#[export] Hint Rewrite free_chan_bqueues : fr_bqueues.
Lemma free_chan_lsts s : lsts (free_chan s) = lsts s.
Proof. unfold free_chan; cbv zeta; repeat (progress (simpl; autorewrite with fr_lsts)); done. Qed.
#[export] Hint Rewrite free_chan_lsts : fr_lsts.
Lemma free_chan_addrs s : addrs (free_chan s) = addrs s.
Proof. unfold free_chan; cbv zeta; repeat (progress (simpl; autorewrite with fr_addrs)); done. Qed.
#[export] Hint Rewrite free_chan_addrs : fr_addrs.
Lemma free_chan_hols s : hols (free_chan s) = hols s.
Proof. unfold free_chan; cbv zeta; repeat (progress (simpl; autorewrite with fr_hols)); done. Qed.
#[export] Hint Rewrite free_chan_hols : fr_hols.
Lemma free_chan_sfs s : sfs (free_chan s) = sfs s.
Proof. unfold free_chan; cbv zeta; repeat (progress (simpl; autorewrite with fr_sfs)); done. Qed.
#[export] Hint Rewrite free_chan_sfs : fr_sfs.
Lemma free_chan_rcvs s : rcvs (free_chan s) = rcvs s.
Proof. unfold free_chan; cbv zeta; repeat (progress (simpl; autorewrite with fr_rcvs)); done. Qed.
#[export] Hint Rewrite free_chan_rcvs : fr_rcvs.
Lemma free_chan_jhs s : jhs (free_chan s) = jhs s.
Proof. unfold free_chan; cbv zeta; repeat (progress (simpl; autorewrite with fr_jhs)); done. Qed.
#[export] Hint Rewrite free_chan_jhs : fr_jhs.
Lemma free_chan_thr s : thr (free_chan s) = thr s.
Proof. unfold free_chan; cbv zeta; repeat (progress (simpl; autorewrite with fr_thr)); done. Qed.
#[export] Hint Rewrite free_chan_thr : fr_thr.
Lemma free_chan_nbm s : nbm (free_chan s) = nbm s.
Proof. unfold free_chan; cbv zeta; repeat (progress (simpl; autorewrite with fr_nbm)); done. Qed.
#[export] Hint Rewrite free_chan_nbm : fr_nbm.
Lemma free_chan_nwk s : nwk (free_chan s) = nwk s.
Proof. unfold free_chan; cbv zeta; repeat (progress (simpl; autorewrite with fr_nwk)); done. Qed.
#[export] Hint Rewrite free_chan_nwk : fr_nwk.

Lemma call_cap p s : cap (call p s) = cap s.
Proof. unfold call; repeat (case_match; simplify_eq/=); simpl; autorewrite with fr_cap; simpl; autorewrite with fr_cap; done. Qed.
#[export] Hint Rewrite call_cap : fr_cap.
Lemma call_txc p s : txc (call p s) = txc s.
Proof. unfold call; repeat (case_match; simplify_eq/=); simpl; autorewrite with fr_txc; simpl; autorewrite with fr_txc; done. Qed.
#[export] Hint Rewrite call_txc : fr_txc.
Lemma call_rxc p s : rxc (call p s) = rxc s.
Proof. unfold call; repeat (case_match; simplify_eq/=); simpl; autorewrite with fr_rxc; simpl; autorewrite with fr_rxc; done. Qed.
#[export] Hint Rewrite call_rxc : fr_rxc.
Lemma call_uq p s : uq (call p s) = uq s.
Proof. unfold call; repeat (case_match; simplify_eq/=); simpl; autorewrite with fr_uq; simpl; autorewrite with fr_uq; done. Qed.
#[export] Hint Rewrite call_uq : fr_uq.
Lemma call_ws1 p s : ws1 (call p s) = ws1 s.
Proof. unfold call; repeat (case_match; simplify_eq/=); simpl; autorewrite with fr_ws1; simpl; autorewrite with fr_ws1; done. Qed.
#[export] Hint Rewrite call_ws1 : fr_ws1.
Lemma call_wsA p s : wsA (call p s) = wsA s.
Proof. unfold call; repeat (case_match; simplify_eq/=); simpl; autorewrite with fr_wsA; simpl; autorewrite with fr_wsA; done. Qed.
#[export] Hint Rewrite call_wsA : fr_wsA.
Lemma call_wrx p s : wrx (call p s) = wrx s.
Proof. unfold call; repeat (case_match; simplify_eq/=); simpl; autorewrite with fr_wrx; simpl; autorewrite with fr_wrx; done. Qed.
#[export] Hint Rewrite call_wrx : fr_wrx.
Lemma call_bqs p s : bqs (call p s) = bqs s.
Proof. unfold call; repeat (case_match; simplify_eq/=); simpl; autorewrite with fr_bqs; simpl; autorewrite with fr_bqs; done. Qed.
#[export] Hint Rewrite call_bqs : fr_bqs.
Lemma call_tail p s : tail (call p s) = tail s.
Proof. unfold call; repeat (case_match; simplify_eq/=); simpl; autorewrite with fr_tail; simpl; autorewrite with fr_tail; done. Qed.
#[export] Hint Rewrite call_tail : fr_tail.
Lemma call_cells1 p s : cells1 (call p s) = cells1 s.
Proof. unfold call; repeat (case_match; simplify_eq/=); simpl; autorewrite with fr_cells1; simpl; autorewrite with fr_cells1; done. Qed.
#[export] Hint Rewrite call_cells1 : fr_cells1.
Lemma call_cellsA p s : cellsA (call p s) = cellsA s.
Proof. unfold call; repeat (case_match; simplify_eq/=); simpl; autorewrite with fr_cellsA; simpl; autorewrite with fr_cellsA; done. Qed.
#[export] Hint Rewrite call_cellsA : fr_cellsA.
Lemma call_ones p s : ones (call p s) = ones s.
Proof. unfold call; repeat (case_match; simplify_eq/=); simpl; autorewrite with fr_ones; simpl; autorewrite with fr_ones; done. Qed.
#[export] Hint Rewrite call_ones : fr_ones.
Lemma call_bqueues p s : bqueues (call p s) = bqueues s.
Proof. unfold call; repeat (case_match; simplify_eq/=); simpl; autorewrite with fr_bqueues; simpl; autorewrite with fr_bqueues; done. Qed.
#[export] Hint Rewrite call_bqueues : fr_bqueues.
Lemma call_reps p s : reps (call p s) = reps s.
Proof. unfold call; repeat (case_match; simplify_eq/=); simpl; autorewrite with fr_reps; simpl; autorewrite with fr_reps; done. Qed.
#[export] Hint Rewrite call_reps : fr_reps.
Lemma call_lsts p s : lsts (call p s) = lsts s.
Proof. unfold call; repeat (case_match; simplify_eq/=); simpl; autorewrite with fr_lsts; simpl; autorewrite with fr_lsts; done. Qed.
#[export] Hint Rewrite call_lsts : fr_lsts.
Lemma call_addrs p s : addrs (call p s) = addrs s.
Proof. unfold call; repeat (case_match; simplify_eq/=); simpl; autorewrite with fr_addrs; simpl; autorewrite with fr_addrs; done. Qed.
#[export] Hint Rewrite call_addrs : fr_addrs.
Lemma call_hols p s : hols (call p s) = hols s.
Proof. unfold call; repeat (case_match; simplify_eq/=); simpl; autorewrite with fr_hols; simpl; autorewrite with fr_hols; done. Qed.
#[export] Hint Rewrite call_hols : fr_hols.
Lemma call_sfs p s : sfs (call p s) = sfs s.
Proof. unfold call; repeat (case_match; simplify_eq/=); simpl; autorewrite with fr_sfs; simpl; autorewrite with fr_sfs; done. Qed.
#[export] Hint Rewrite call_sfs : fr_sfs.
Lemma call_rcvs p s : rcvs (call p s) = rcvs s.
Proof. unfold call; repeat (case_match; simplify_eq/=); simpl; autorewrite with fr_rcvs; simpl; autorewrite with fr_rcvs; done. Qed.
#[export] Hint Rewrite call_rcvs : fr_rcvs.
Lemma call_jhs p s : jhs (call p s) = jhs s.
Proof. unfold call; repeat (case_match; simplify_eq/=); simpl; autorewrite with fr_jhs; simpl; autorewrite with fr_jhs; done. Qed.
#[export] Hint Rewrite call_jhs : fr_jhs.
Lemma call_nbm p s : nbm (call p s) = nbm s.
Proof. unfold call; repeat (case_match; simplify_eq/=); simpl; autorewrite with fr_nbm; simpl; autorewrite with fr_nbm; done. Qed.
#[export] Hint Rewrite call_nbm : fr_nbm.
Lemma call_nwk p s : nwk (call p s) = nwk s.
Proof. unfold call; repeat (case_match; simplify_eq/=); simpl; autorewrite with fr_nwk; simpl; autorewrite with fr_nwk; done. Qed.
#[export] Hint Rewrite call_nwk : fr_nwk.
Lemma call_wakes p s : wakes (call p s) = wakes s.
Proof. unfold call; repeat (case_match; simplify_eq/=); simpl; autorewrite with fr_wakes; simpl; autorewrite with fr_wakes; done. Qed.
#[export] Hint Rewrite call_wakes : fr_wakes.
Lemma call_log p s : log (call p s) = log s.
Proof. unfold call; repeat (case_match; simplify_eq/=); simpl; autorewrite with fr_log; simpl; autorewrite with fr_log; done. Qed.
#[export] Hint Rewrite call_log : fr_log.

Lemma put_sf_cap f x s : cap (put_sf f x s) = cap s.
Proof. unfold put_sf; repeat (case_match; simplify_eq/=); simpl; autorewrite with fr_cap; simpl; autorewrite with fr_cap; done. Qed.
#[export] Hint Rewrite put_sf_cap : fr_cap.
Lemma put_sf_txc f x s : txc (put_sf f x s) = txc s.
Proof. unfold put_sf; repeat (case_match; simplify_eq/=); simpl; autorewrite with fr_txc; simpl; autorewrite with fr_txc; done. Qed.
#[export] Hint Rewrite put_sf_txc : fr_txc.
Lemma put_sf_rxc f x s : rxc (put_sf f x s) = rxc s.
Proof. unfold put_sf; repeat (case_match; simplify_eq/=); simpl; autorewrite with fr_rxc; simpl; autorewrite with fr_rxc; done. Qed.
#[export] Hint Rewrite put_sf_rxc : fr_rxc.
Lemma put_sf_uq f x s : uq (put_sf f x s) = uq s.
Proof. unfold put_sf; repeat (case_match; simplify_eq/=); simpl; autorewrite with fr_uq; simpl; autorewrite with fr_uq; done. Qed.
#[export] Hint Rewrite put_sf_uq : fr_uq.
Lemma put_sf_ws1 f x s : ws1 (put_sf f x s) = ws1 s.
Proof. unfold put_sf; repeat (case_match; simplify_eq/=); simpl; autorewrite with fr_ws1; simpl; autorewrite with fr_ws1; done. Qed.
#[export] Hint Rewrite put_sf_ws1 : fr_ws1.
Lemma put_sf_wsA f x s : wsA (put_sf f x s) = wsA s.
Proof. unfold put_sf; repeat (case_match; simplify_eq/=); simpl; autorewrite with fr_wsA; simpl; autorewrite with fr_wsA; done. Qed.
#[export] Hint Rewrite put_sf_wsA : fr_wsA.
Lemma put_sf_wrx f x s : wrx (put_sf f x s) = wrx s.
Proof. unfold put_sf; repeat (case_match; simplify_eq/=); simpl; autorewrite with fr_wrx; simpl; autorewrite with fr_wrx; done. Qed.
#[export] Hint Rewrite put_sf_wrx : fr_wrx.
Lemma put_sf_bqs f x s : bqs (put_sf f x s) = bqs s.
Proof. unfold put_sf; repeat (case_match; simplify_eq/=); simpl; autorewrite with fr_bqs; simpl; autorewrite with fr_bqs; done. Qed.
#[export] Hint Rewrite put_sf_bqs : fr_bqs.
Lemma put_sf_tail f x s : tail (put_sf f x s) = tail s.
Proof. unfold put_sf; repeat (case_match; simplify_eq/=); simpl; autorewrite with fr_tail; simpl; autorewrite with fr_tail; done. Qed.
#[export] Hint Rewrite put_sf_tail : fr_tail.
Lemma put_sf_cells1 f x s : cells1 (put_sf f x s) = cells1 s.
Proof. unfold put_sf; repeat (case_match; simplify_eq/=); simpl; autorewrite with fr_cells1; simpl; autorewrite with fr_cells1; done. Qed.
#[export] Hint Rewrite put_sf_cells1 : fr_cells1.
Lemma put_sf_cellsA f x s : cellsA (put_sf f x s) = cellsA s.
Proof. unfold put_sf; repeat (case_match; simplify_eq/=); simpl; autorewrite with fr_cellsA; simpl; autorewrite with fr_cellsA; done. Qed.
#[export] Hint Rewrite put_sf_cellsA : fr_cellsA.
Lemma put_sf_ones f x s : ones (put_sf f x s) = ones s.
Proof. unfold put_sf; repeat (case_match; simplify_eq/=); simpl; autorewrite with fr_ones; simpl; autorewrite with fr_ones; done. Qed.
#[export] Hint Rewrite put_sf_ones : fr_ones.
Lemma put_sf_bqueues f x s : bqueues (put_sf f x s) = bqueues s.
Proof. unfold put_sf; repeat (case_match; simplify_eq/=); simpl; autorewrite with fr_bqueues; simpl; autorewrite with fr_bqueues; done. Qed.
#[export] Hint Rewrite put_sf_bqueues : fr_bqueues.
Lemma put_sf_reps f x s : reps (put_sf f x s) = reps s.
Proof. unfold put_sf; repeat (case_match; simplify_eq/=); simpl; autorewrite with fr_reps; simpl; autorewrite with fr_reps; done. Qed.
#[export] Hint Rewrite put_sf_reps : fr_reps.
Lemma put_sf_lsts f x s : lsts (put_sf f x s) = lsts s.
Proof. unfold put_sf; repeat (case_match; simplify_eq/=); simpl; autorewrite with fr_lsts; simpl; autorewrite with fr_lsts; done. Qed.
#[export] Hint Rewrite put_sf_lsts : fr_lsts.
Lemma put_sf_addrs f x s : addrs (put_sf f x s) = addrs s.
Proof. unfold put_sf; repeat (case_match; simplify_eq/=); simpl; autorewrite with fr_addrs; simpl; autorewrite with fr_addrs; done. Qed.
#[export] Hint Rewrite put_sf_addrs : fr_addrs.
Lemma put_sf_hols f x s : hols (put_sf f x s) = hols s.
Proof. unfold put_sf; repeat (case_match; simplify_eq/=); simpl; autorewrite with fr_hols; simpl; autorewrite with fr_hols; done. Qed.
#[export] Hint Rewrite put_sf_hols : fr_hols.
Lemma put_sf_rcvs f x s : rcvs (put_sf f x s) = rcvs s.
Proof. unfold put_sf; repeat (case_match; simplify_eq/=); simpl; autorewrite with fr_rcvs; simpl; autorewrite with fr_rcvs; done. Qed.
#[export] Hint Rewrite put_sf_rcvs : fr_rcvs.
Lemma put_sf_jhs f x s : jhs (put_sf f x s) = jhs s.
Proof. unfold put_sf; repeat (case_match; simplify_eq/=); simpl; autorewrite with fr_jhs; simpl; autorewrite with fr_jhs; done. Qed.
#[export] Hint Rewrite put_sf_jhs : fr_jhs.
Lemma put_sf_thr f x s : thr (put_sf f x s) = thr s.
Proof. unfold put_sf; repeat (case_match; simplify_eq/=); simpl; autorewrite with fr_thr; simpl; autorewrite with fr_thr; done. Qed.
#[export] Hint Rewrite put_sf_thr : fr_thr.
Lemma put_sf_nbm f x s : nbm (put_sf f x s) = nbm s.
Proof. unfold put_sf; repeat (case_match; simplify_eq/=); simpl; autorewrite with fr_nbm; simpl; autorewrite with fr_nbm; done. Qed.
#[export] Hint Rewrite put_sf_nbm : fr_nbm.
Lemma put_sf_nwk f x s : nwk (put_sf f x s) = nwk s.
Proof. unfold put_sf; repeat (case_match; simplify_eq/=); simpl; autorewrite with fr_nwk; simpl; autorewrite with fr_nwk; done. Qed.
#[export] Hint Rewrite put_sf_nwk : fr_nwk.
Lemma put_sf_wakes f x s : wakes (put_sf f x s) = wakes s.
Proof. unfold put_sf; repeat (case_match; simplify_eq/=); simpl; autorewrite with fr_wakes; simpl; autorewrite with fr_wakes; done. Qed.
#[export] Hint Rewrite put_sf_wakes : fr_wakes.
Lemma put_sf_log f x s : log (put_sf f x s) = log s.
Proof. unfold put_sf; repeat (case_match; simplify_eq/=); simpl; autorewrite with fr_log; simpl; autorewrite with fr_log; done. Qed.
#[export] Hint Rewrite put_sf_log : fr_log.

Lemma add_addr_cap k e s : cap (add_addr k e s) = cap s.
Proof. unfold add_addr; repeat (case_match; simplify_eq/=); simpl; autorewrite with fr_cap; simpl; autorewrite with fr_cap; done. Qed.
#[export] Hint Rewrite add_addr_cap : fr_cap.
Lemma add_addr_rxc k e s : rxc (add_addr k e s) = rxc s.
Proof. unfold add_addr; repeat (case_match; simplify_eq/=); simpl; autorewrite with fr_rxc; simpl; autorewrite with fr_rxc; done. Qed.
#[export] Hint Rewrite add_addr_rxc : fr_rxc.
Lemma add_addr_uq k e s : uq (add_addr k e s) = uq s.
Proof. unfold add_addr; repeat (case_match; simplify_eq/=); simpl; autorewrite with fr_uq; simpl; autorewrite with fr_uq; done. Qed.
#[export] Hint Rewrite add_addr_uq : fr_uq.
Lemma add_addr_ws1 k e s : ws1 (add_addr k e s) = ws1 s.
Proof. unfold add_addr; repeat (case_match; simplify_eq/=); simpl; autorewrite with fr_ws1; simpl; autorewrite with fr_ws1; done. Qed.
#[export] Hint Rewrite add_addr_ws1 : fr_ws1.
Lemma add_addr_wsA k e s : wsA (add_addr k e s) = wsA s.
Proof. unfold add_addr; repeat (case_match; simplify_eq/=); simpl; autorewrite with fr_wsA; simpl; autorewrite with fr_wsA; done. Qed.
#[export] Hint Rewrite add_addr_wsA : fr_wsA.
Lemma add_addr_wrx k e s : wrx (add_addr k e s) = wrx s.
Proof. unfold add_addr; repeat (case_match; simplify_eq/=); simpl; autorewrite with fr_wrx; simpl; autorewrite with fr_wrx; done. Qed.
#[export] Hint Rewrite add_addr_wrx : fr_wrx.
Lemma add_addr_bqs k e s : bqs (add_addr k e s) = bqs s.
Proof. unfold add_addr; repeat (case_match; simplify_eq/=); simpl; autorewrite with fr_bqs; simpl; autorewrite with fr_bqs; done. Qed.
#[export] Hint Rewrite add_addr_bqs : fr_bqs.
Lemma add_addr_tail k e s : tail (add_addr k e s) = tail s.
Proof. unfold add_addr; repeat (case_match; simplify_eq/=); simpl; autorewrite with fr_tail; simpl; autorewrite with fr_tail; done. Qed.
#[export] Hint Rewrite add_addr_tail : fr_tail.
Lemma add_addr_cells1 k e s : cells1 (add_addr k e s) = cells1 s.
Proof. unfold add_addr; repeat (case_match; simplify_eq/=); simpl; autorewrite with fr_cells1; simpl; autorewrite with fr_cells1; done. Qed.
#[export] Hint Rewrite add_addr_cells1 : fr_cells1.
Lemma add_addr_cellsA k e s : cellsA (add_addr k e s) = cellsA s.
Proof. unfold add_addr; repeat (case_match; simplify_eq/=); simpl; autorewrite with fr_cellsA; simpl; autorewrite with fr_cellsA; done. Qed.
#[export] Hint Rewrite add_addr_cellsA : fr_cellsA.
Lemma add_addr_ones k e s : ones (add_addr k e s) = ones s.
Proof. unfold add_addr; repeat (case_match; simplify_eq/=); simpl; autorewrite with fr_ones; simpl; autorewrite with fr_ones; done. Qed.
#[export] Hint Rewrite add_addr_ones : fr_ones.
Lemma add_addr_bqueues k e s : bqueues (add_addr k e s) = bqueues s.
Proof. unfold add_addr; repeat (case_match; simplify_eq/=); simpl; autorewrite with fr_bqueues; simpl; autorewrite with fr_bqueues; done. Qed.
#[export] Hint Rewrite add_addr_bqueues : fr_bqueues.
Lemma add_addr_reps k e s : reps (add_addr k e s) = reps s.
Proof. unfold add_addr; repeat (case_match; simplify_eq/=); simpl; autorewrite with fr_reps; simpl; autorewrite with fr_reps; done. Qed.
#[export] Hint Rewrite add_addr_reps : fr_reps.
Lemma add_addr_lsts k e s : lsts (add_addr k e s) = lsts s.
Proof. unfold add_addr; repeat (case_match; simplify_eq/=); simpl; autorewrite with fr_lsts; simpl; autorewrite with fr_lsts; done. Qed.
#[export] Hint Rewrite add_addr_lsts : fr_lsts.
Lemma add_addr_hols k e s : hols (add_addr k e s) = hols s.
Proof. unfold add_addr; repeat (case_match; simplify_eq/=); simpl; autorewrite with fr_hols; simpl; autorewrite with fr_hols; done. Qed.
#[export] Hint Rewrite add_addr_hols : fr_hols.
Lemma add_addr_sfs k e s : sfs (add_addr k e s) = sfs s.
Proof. unfold add_addr; repeat (case_match; simplify_eq/=); simpl; autorewrite with fr_sfs; simpl; autorewrite with fr_sfs; done. Qed.
#[export] Hint Rewrite add_addr_sfs : fr_sfs.
Lemma add_addr_rcvs k e s : rcvs (add_addr k e s) = rcvs s.
Proof. unfold add_addr; repeat (case_match; simplify_eq/=); simpl; autorewrite with fr_rcvs; simpl; autorewrite with fr_rcvs; done. Qed.
#[export] Hint Rewrite add_addr_rcvs : fr_rcvs.
Lemma add_addr_jhs k e s : jhs (add_addr k e s) = jhs s.
Proof. unfold add_addr; repeat (case_match; simplify_eq/=); simpl; autorewrite with fr_jhs; simpl; autorewrite with fr_jhs; done. Qed.
#[export] Hint Rewrite add_addr_jhs : fr_jhs.
Lemma add_addr_thr k e s : thr (add_addr k e s) = thr s.
Proof. unfold add_addr; repeat (case_match; simplify_eq/=); simpl; autorewrite with fr_thr; simpl; autorewrite with fr_thr; done. Qed.
#[export] Hint Rewrite add_addr_thr : fr_thr.
Lemma add_addr_nbm k e s : nbm (add_addr k e s) = nbm s.
Proof. unfold add_addr; repeat (case_match; simplify_eq/=); simpl; autorewrite with fr_nbm; simpl; autorewrite with fr_nbm; done. Qed.
#[export] Hint Rewrite add_addr_nbm : fr_nbm.
Lemma add_addr_nwk k e s : nwk (add_addr k e s) = nwk s.
Proof. unfold add_addr; repeat (case_match; simplify_eq/=); simpl; autorewrite with fr_nwk; simpl; autorewrite with fr_nwk; done. Qed.
#[export] Hint Rewrite add_addr_nwk : fr_nwk.
Lemma add_addr_wakes k e s : wakes (add_addr k e s) = wakes s.
Proof. unfold add_addr; repeat (case_match; simplify_eq/=); simpl; autorewrite with fr_wakes; simpl; autorewrite with fr_wakes; done. Qed.
#[export] Hint Rewrite add_addr_wakes : fr_wakes.
Lemma add_addr_log k e s : log (add_addr k e s) = log s.
Proof. unfold add_addr; repeat (case_match; simplify_eq/=); simpl; autorewrite with fr_log; simpl; autorewrite with fr_log; done. Qed.
#[export] Hint Rewrite add_addr_log : fr_log.

