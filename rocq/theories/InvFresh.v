(** Wakers are fresh: a waker that is registered or was woken was created by an earlier poll. *)
From stdpp Require Import base numbers list list_numbers.
From Coq Require Import Lia.
From Verif Require Import Prio Heap State Model HeapProofs Frame Lib InvBusy InvCount Effects InvMsg InvOne InvFut InvPoll WakeRel.

Definition reg {A} (N : nat) (p : A → option (option waker)) (l : list A) : Prop := ∀ i y w, l !! i = Some y → p y = Some (Some w) → w < N.
Definition bnd (N : nat) (s : state) : Prop :=
  (∀ w, w ∈ wakes s → w < N) ∧ reg N pdo (ones s) ∧ reg N pdc (cells1 s) ∧ reg N pdc (cellsA s) ∧ reg N pdr (reps s) ∧ reg N pdl (lsts s).

Lemma reg_insert {A} N (p : A → option (option waker)) l i y : (∀ w, p y = Some (Some w) → w < N) → reg N p l → reg N p (<[i := y]> l).
Proof. intros Hy H j z w [(-> & <- & _)|[_ Hz]]%list_lookup_insert_Some; [apply Hy|by eapply H]. Qed.
Lemma reg_app {A} N (p : A → option (option waker)) l y : p y = None ∨ p y = Some None → reg N p l → reg N p (l ++ [y]).
Proof. intros Hy H j z w [Hz|[_ Hz]]%lookup_app_Some; [by eapply H|]. apply list_lookup_singleton_Some in Hz as [_ <-]. destruct Hy as [-> | ->]; done. Qed.
Lemma bnd_frame N s s1 : ones s1 = ones s → cells1 s1 = cells1 s → cellsA s1 = cellsA s → reps s1 = reps s → lsts s1 = lsts s → wakes s1 = wakes s → bnd N s → bnd N s1.
Proof. unfold bnd. by intros -> -> -> -> -> ->. Qed.
Lemma bnd_wake N w s : (∀ k, w = Some k → k < N) → bnd N s → bnd N (wake w s).
Proof.
  intros Hw (B1 & B2 & B3 & B4 & B5 & B6). unfold bnd. autorewrite with fr_ones fr_cells1 fr_cellsA fr_reps fr_lsts. split_and!; try done.
  destruct w as [k|]; [|done]. cbn. intros x [-> | Hx]%elem_of_cons; [by apply Hw|by apply B1].
Qed.
Ltac res_bnd := intros H1 H2 H3 (B1 & B2 & B3 & B4 & B5 & B6); apply bnd_wake;
  [intros k ->; match goal with H : reg _ ?p _, H' : ?p _ = _ |- _ => eapply H; [exact H1|exact H'] end
  |unfold bnd; prj; split_and!; try done; apply reg_insert; [by rewrite H3|done]].
Lemma bnd_res_one N s o y y' w : ones s !! o = Some y → pdo y = Some w → pdo y' = None → bnd N s → bnd N (wake w (set_ones (<[o := y']> (ones s)) s)).
Proof. res_bnd. Qed.
Lemma bnd_res_1 N s o y y' w : cells1 s !! o = Some y → pdc y = Some w → pdc y' = None → bnd N s → bnd N (wake w (set_cells1 (<[o := y']> (cells1 s)) s)).
Proof. intros H1 H2 H3 (B1 & B2 & B3 & B4 & B5 & B6); apply bnd_wake. { intros k ->. by eapply B3. } unfold bnd; prj; split_and!; try done; apply reg_insert; [by rewrite H3|done]. Qed.
Lemma bnd_res_A N s o y y' w : cellsA s !! o = Some y → pdc y = Some w → pdc y' = None → bnd N s → bnd N (wake w (set_cellsA (<[o := y']> (cellsA s)) s)).
Proof. intros H1 H2 H3 (B1 & B2 & B3 & B4 & B5 & B6); apply bnd_wake. { intros k ->. by eapply B4. } unfold bnd; prj; split_and!; try done; apply reg_insert; [by rewrite H3|done]. Qed.
Lemma bnd_res_R N s o y y' w : reps s !! o = Some y → pdr y = Some w → pdr y' = None → bnd N s → bnd N (wake w (set_reps (<[o := y']> (reps s)) s)).
Proof. res_bnd. Qed.
Lemma bnd_close_reply N s m : bnd N s → bnd N (close_reply m s).
Proof. unfold close_reply. destruct (reps s !! m) as [[rx [w| | |]]|] eqn:E; try done. by eapply bnd_res_R. Qed.
Lemma bnd_drop_umsg N s y m : bnd N s → bnd N (drop_umsg y m s).
Proof. unfold drop_umsg. intros H. exact (bnd_close_reply N s (um_id m) H). Qed.
Lemma bnd_fold {B} N (f : state → B → state) l s : (∀ s x, bnd N s → bnd N (f s x)) → bnd N s → bnd N (fold_left f l s).
Proof. intros H. revert s; induction l as [|x l IH]; intros s; cbn; [done|]. intros. apply IH. by apply H. Qed.
Lemma bnd_drop_umsgs N s y l : bnd N s → bnd N (drop_umsgs y l s).
Proof. unfold drop_umsgs. apply bnd_fold. intros. by apply bnd_drop_umsg. Qed.
Lemma bnd_close1 N s c : bnd N s → bnd N (close_handle1 s c).
Proof.
  unfold close_handle1. destruct (cells1 s !! c) as [[[] [w m| |]]|] eqn:E; try done. intros. apply bnd_drop_umsg. by eapply bnd_res_1.
Qed.
Lemma bnd_closeA N s c : bnd N s → bnd N (close_handleA s c).
Proof. unfold close_handleA. destruct (cellsA s !! c) as [[[] [w m| |]]|] eqn:E; try done. by eapply bnd_res_A. Qed.
Lemma bnd_one_send N s o c : bnd N s → bnd N (one_send o c s).1.
Proof. unfold one_send. destruct (ones s !! o) as [[[] [w| | |]]|] eqn:E; try done. by eapply bnd_res_one. Qed.
Lemma bnd_fulfill N ws m s : bnd N s → bnd N (fulfill ws m s).1.
Proof.
  revert s; induction ws as [|o ws IH]; intros s Hs; cbn [fulfill]; [exact Hs|].
  pose proof (bnd_one_send N s o (CNewMsg m) Hs) as H. destruct (one_send o (CNewMsg m) s) as [s' []]; cbn [fst] in *; [exact H|]. by apply IH.
Qed.
Lemma bnd_close_one N s o : bnd N s → bnd N (close_one s o).
Proof. unfold close_one. destruct (ones s !! o) as [[rx [w| | |]]|] eqn:E; try done. by eapply bnd_res_one. Qed.
Lemma try_take_reg {A} (key : A → prio) N n cs ws cs' ws' r : try_take key n cs ws = (cs', ws', r) → reg N pdc cs → reg N pdc cs' ∧ ∀ m k, r = Some (m, Some k) → k < N.
Proof.
  revert cs ws. induction n as [|n IH]; intros cs ws; cbn [try_take]. { intros [= <- <- <-]. done. }
  destruct (find_remove key cs ws) as [wx [c|]]; [|intros [= <- <- <-]; done].
  unfold take_message. destruct (cs !! c) as [[[] [w m| |]]|] eqn:E; intros H HR.
  - injection H as <- <- <-. split. { by apply reg_insert. } intros m' k [= -> ->]. by eapply HR.
  - eapply IH; [exact H|]. by apply reg_insert.
  - eapply IH; [exact H|]. by apply reg_insert.
  - by eapply IH.
  - by eapply IH.
  - by eapply IH.
  - by eapply IH.
Qed.
Lemma bnd_take1 N s : bnd N s → bnd N (take_waiting1 s).1.
Proof.
  intros HB. pose proof HB as (B1 & B2 & B3 & B4 & B5 & B6). unfold take_waiting1. destruct (try_take um_prio _ _ _) as [[cs ws] r] eqn:E. destruct (try_take_reg _ N _ _ _ _ _ _ E B3) as [R1 R2].
  assert (bnd N (set_ws1 ws (set_cells1 cs s))) as H by (unfold bnd; prj; split_and!; done).
  destruct r as [[m w]|]; [|done]. change (bnd N (wake w (set_ws1 ws (set_cells1 cs s)))). apply bnd_wake; [|done]. intros k ->. by eapply R2.
Qed.
Lemma bnd_takeA N s : bnd N s → bnd N (take_waitingA s).1.
Proof.
  intros HB. pose proof HB as (B1 & B2 & B3 & B4 & B5 & B6). unfold take_waitingA. destruct (try_take bm_prio _ _ _) as [[cs ws] r] eqn:E. destruct (try_take_reg _ N _ _ _ _ _ _ E B4) as [R1 R2].
  assert (bnd N (set_wsA ws (set_cellsA cs s))) as H by (unfold bnd; prj; split_and!; done).
  destruct r as [[m w]|]; [|done]. change (bnd N (wake w (set_wsA ws (set_cellsA cs s)))). apply bnd_wake; [|done]. intros k ->. by eapply R2.
Qed.
Lemma bnd_bq_put N s b h : bnd N s → bnd N (bq_put b h s).
Proof. unfold bq_put. by case_match. Qed.
Lemma bnd_bcast N s m : bnd N s → bnd N (send_broadcast m s).
Proof.
  unfold send_broadcast. cbv zeta. intros H.
  match goal with |- bnd _ (emit _ (set_tail _ ?x)) => change (bnd N x) | |- bnd _ (set_tail _ ?x) => change (bnd N x) | _ => idtac end.
  apply bnd_fold. { intros. by apply bnd_one_send. }
  match goal with |- bnd _ (set_wrx _ ?x) => change (bnd N x) end. 
  match goal with |- context [fold_left ?f ?l s] => assert (bnd N (fold_left f l s)) as HF; [apply bnd_fold; [|done]; intros; by apply bnd_bq_put|exact HF] end.
Qed.
Lemma bnd_pop1 N s : bnd N s → bnd N (pop_unicast s).1.
Proof.
  unfold pop_unicast. destruct (heap_pop _ _) as [[m h]|]; [|done]. cbv zeta. intros H. case_match; [exact H|].
  pose proof (bnd_take1 N (set_uq h s) H) as HT. destruct (take_waiting1 _) as [s2 [m2|]]; exact HT.
Qed.
Lemma bnd_popA N b s : bnd N s → bnd N (pop_broadcast b s).1.
Proof.
  unfold pop_broadcast. destruct (heap_pop _ _) as [[m h]|]; [|done]. cbv zeta. intros H.
  set (s2 := set_tail _ _). assert (bnd N s2) as H2 by exact (bnd_bq_put N s b h H). case_match; [exact H2|].
  pose proof (bnd_takeA N s2 H2) as HT. destruct (take_waitingA s2) as [s3 [m2|]]; cbn [fst] in *; [|done]. by apply bnd_bcast.
Qed.
Lemma bnd_shutdown N s : bnd N s → bnd N (exec_rx_shutdown s).
Proof.
  intros HB. unfold exec_rx_shutdown. cbv zeta. apply bnd_fold. { intros; by apply bnd_closeA. }
  match goal with |- bnd _ (set_wsA _ ?x) => change (bnd N x) end. apply bnd_fold. { intros; by apply bnd_close1. }
  match goal with |- bnd _ (set_ws1 _ (set_bqs _ ?x)) => change (bnd N x) end. apply bnd_drop_umsgs.
  match goal with |- bnd _ (set_uq _ ?x) => change (bnd N x) end.
  pose proof HB as (_ & _ & _ & _ & _ & B6).
  assert (∀ l x, (∀ y, y ∈ l → y ∈ lsts s) → bnd N x → bnd N (fold_left (λ s l, if ls_notified l then s else wake (ls_wk l) s) l x)) as Hf.
  { induction l as [|y l IH]; intros x Hl Hx; [done|]. cbn. apply IH. { intros z Hz. apply Hl. by right. }
    destruct (ls_notified y) eqn:Ey; [done|]. apply bnd_wake; [|done]. intros k Hk.
    assert (y ∈ lsts s) as Hy by (apply Hl; by left). apply elem_of_list_lookup in Hy as [i Hi]. eapply B6; [exact Hi|]. unfold pdl. by rewrite Ey, Hk. }
  specialize (Hf (lsts s) s ltac:(done) HB). destruct Hf as (C1 & C2 & C3 & C4 & C5 & C6). unfold bnd. prj. split_and!; try done.
  intros i y w Hi. change (list_fmap ?f) with (fmap (M:=list) f) in Hi. rewrite list_lookup_fmap in Hi. apply fmap_Some in Hi as (z & _ & ->). done.
Qed.
Lemma bnd_free N s : bnd N s → bnd N (free_chan s).
Proof.
  intros H. unfold free_chan. cbv zeta. 
  match goal with |- bnd _ (set_bqs [] ?x) => change (bnd N x) end. apply bnd_drop_umsgs.
  match goal with |- bnd _ (set_uq _ ?x) => change (bnd N x) end. apply bnd_fold. { intros; by apply bnd_close_one. }
  match goal with |- bnd _ (set_wrx _ ?x) => change (bnd N x) end. apply bnd_fold. { intros; by apply bnd_closeA. }
  match goal with |- bnd _ (set_wsA _ ?x) => change (bnd N x) end. apply bnd_fold. { intros; by apply bnd_close1. } done.
Qed.
Lemma bnd_poll N m w s : w < N → bnd N s → bnd N (poll_reply m w s).1.
Proof.
  intros Hw HB. pose proof HB as (B1 & B2 & B3 & B4 & B5 & B6). unfold poll_reply. destruct (reps s !! m) as [[rx [ww| | |]]|]; try done; cbn [fst]; unfold bnd; prj; split_and!; try done; (apply reg_insert; [|done]); try done. by intros k [= <-].
Qed.
Lemma exec_nwk u s s1 new : exec u s = (s1, new) → nwk s1 = nwk s.
Proof. intros E. exec_cases u E; by repeat (progress (prj; autorewrite with fr_nwk)). Qed.
Definition act_wk (N : nat) (u : micro) (s : state) : Prop :=
  match u with
  | UPollOne r _ => ∀ h, hols s !! r = Some h → h_wk h < N
  | USendCell1 f _ | USendCellA f _ | UReplyPoll f _ => ∀ x, sfs s !! f = Some x → sf_wk x < N
  | URcvPoll x => ∀ y, rcvs s !! x = Some y → rc_wk y < N
  | _ => True
  end.
Lemma exec_bnd N u s s1 new : exec u s = (s1, new) → act_wk N u s → bnd N s → bnd N s1.
Proof.
  intros E HA HB. exec_cases u E; try exact HB; try (by apply bnd_shutdown); try (by apply bnd_drop_umsg); cbn in HA.
  all: try match goal with
     | |- bnd _ (deliver ?r ?a ?x) => change (bnd N (set_hst r (HMsg a) x))
     | |- bnd _ (emit _ (set_hst ?r ?h ?x)) => change (bnd N (set_hst r h x)) end.
  all: try match goal with |- bnd _ (set_hst ?r ?h ?x) => assert (bnd N x → bnd N (set_hst r h x)) as HS by (unfold set_hst; by case_match); apply HS; clear HS end.
  all: try first [by apply bnd_one_send|by apply bnd_pop1|by apply bnd_popA|by apply bnd_bcast|by apply bnd_fulfill|exact (bnd_fulfill N _ _ s HB)|exact (bnd_bcast N (set_nbm _ s) _ HB)].
  all: try (eapply bnd_res_R; [eassumption|done|done|done]).
  all: unfold panic_send; try match goal with |- bnd _ (emit EvPanic ?x) => change (bnd N x) end.
  all: try match goal with |- bnd _ (send_out ?f ?a ?o ?x) => assert (bnd N x → bnd N (send_out f a o x)) as HS by (unfold send_out, set_sst; by case_match); apply HS; clear HS end.
  all: try exact HB.
  all: try match goal with |- context [try_fulfill_receiver ?m ?s] => pose proof (bnd_fulfill N (wrx s) m s HB) as HB1; change (fulfill (wrx s) m s) with (try_fulfill_receiver m s) in HB1;
      revert HB1; generalize (try_fulfill_receiver m s).1; clear HB; intros sx HB end.
  all: try match goal with |- context [poll_reply ?m ?w ?s] => assert (bnd N (poll_reply m w s).1) as HB1 by (apply bnd_poll; [by apply HA|assumption]);
      revert HB1; generalize (poll_reply m w s).1; clear HB; intros sx HB end.
  all: try exact HB.
  all: destruct HB as (B1 & B2 & B3 & B4 & B5 & B6); unfold bnd; prj; split_and!; try done;
     try (apply reg_app; [by right|done]); try (apply reg_insert; [|done]; try done).
  all: try (intros k [= <-]; by apply HA).
  all: try (cbn; intros k Hk; match goal with H : reg _ _ ?l, H' : ?l !! _ = Some _ |- _ => by eapply H end).
Qed.
Lemma api_bnd o s : bnd (nwk s) s → bnd (nwk (api o s)) (api o s).
Proof.
  intros HB. assert (bnd (S (nwk s)) s) as HB1.
  { destruct HB as (B1 & B2 & B3 & B4 & B5 & B6). split_and!; [intros w Hw; apply B1 in Hw; lia|intros i y w H1 H2; match goal with H : reg _ _ ?l, H' : ?l !! _ = Some _ |- _ => specialize (H _ _ _ H' H2) end; lia..]. }
  destruct o; cbn [api]; repeat (dgoal; try exact HB); cbv zeta; unfold add_addr; repeat dgoal; repeat (progress (prj; autorewrite with fr_nwk)); try exact HB; try exact HB1.
  1-3: destruct HB as (B1 & B2 & B3 & B4 & B5 & B6); split_and!; prj; try done; apply reg_app; [by right|done].
  destruct HB1 as (B1 & B2 & B3 & B4 & B5 & B6); split_and!; prj; try done. apply reg_insert; [|done]. intros w [= <-]. lia.
Qed.
Lemma api_nwk o s : nwk s ≤ nwk (api o s).
Proof. destruct o; cbn [api]; repeat (dgoal; try done); cbv zeta; unfold add_addr; repeat dgoal; repeat (progress (prj; autorewrite with fr_nwk)); lia. Qed.
Definition InvFr (s : state) : Prop :=
  bnd (nwk s) s ∧ (∀ r h, hols s !! r = Some h → h_st h = HRecvBusy → h_wk h < nwk s) ∧
  (∀ f x, sfs s !! f = Some x → sf_st x = SBusy → sf_wk x < nwk s) ∧ (∀ x y, rcvs s !! x = Some y → rc_st y = XBusy → rc_wk y < nwk s).
Lemma api_busy_h o s r h : hols (api o s) !! r = Some h → h_st h = HRecvBusy → hols s !! r = Some h ∨ h_wk h < nwk (api o s).
Proof.
  destruct o; cbn [api]; repeat (dgoal; try by left); cbv zeta; unfold add_addr; repeat dgoal; repeat (progress (prj; autorewrite with fr_hols fr_nwk)); try (by left).
  all: try (intros [(-> & <- & _)|[_ H]]%list_lookup_insert_Some; [cbn; try done; right; lia|by left]).
  intros [H|[_ H]]%lookup_app_Some; [by left|]. by apply list_lookup_singleton_Some in H as [_ <-].
Qed.
Lemma api_busy_f o s r h : sfs (api o s) !! r = Some h → sf_st h = SBusy → sfs s !! r = Some h ∨ sf_wk h < nwk (api o s).
Proof.
  destruct o; cbn [api]; repeat (dgoal; try by left); cbv zeta; unfold add_addr; repeat dgoal; repeat (progress (prj; autorewrite with fr_sfs fr_nwk)); try (by left).
  all: try (intros [(-> & <- & _)|[_ H]]%list_lookup_insert_Some; [cbn; try done; right; lia|by left]).
  all: try (intros [H|[_ H]]%lookup_app_Some; [by left|]; by apply list_lookup_singleton_Some in H as [_ <-]).
Qed.
Lemma api_busy_x o s r h : rcvs (api o s) !! r = Some h → rc_st h = XBusy → rcvs s !! r = Some h ∨ rc_wk h < nwk (api o s).
Proof.
  destruct o; cbn [api]; repeat (dgoal; try by left); cbv zeta; unfold add_addr; repeat dgoal; repeat (progress (prj; autorewrite with fr_rcvs fr_nwk)); try (by left).
  all: try (intros [(-> & <- & _)|[_ H]]%list_lookup_insert_Some; [cbn; try done; right; lia|by left]).
Qed.
Lemma exec_busy_h u s s1 new r h : exec u s = (s1, new) → hols s1 !! r = Some h → h_st h = HRecvBusy → hols s !! r = Some h.
Proof.
  intros E. exec_cases u E; unfold deliver; repeat (progress (prj; autorewrite with fr_hols)); try done.
  all: try (intros [H|[_ H]]%lookup_app_Some; [done|]; by apply list_lookup_singleton_Some in H as [_ <-]).
  all: match goal with |- alter _ ?r0 _ !! ?r = _ → _ => destruct (decide (r0 = r)) as [->|]; [rewrite list_lookup_alter|by rewrite list_lookup_alter_ne by done] end.
  all: destruct (hols s !! r); cbn; intros [= <-]; done.
Qed.
Lemma exec_busy_f u s s1 new r h : exec u s = (s1, new) → sfs s1 !! r = Some h → sf_st h = SBusy → sfs s !! r = Some h.
Proof.
  intros E. exec_cases u E; unfold send_out; repeat (progress (prj; autorewrite with fr_sfs)); try done.
  all: try (by intros [(-> & <- & _)|[_ H]]%list_lookup_insert_Some).
  all: match goal with |- alter _ ?r0 _ !! ?r = _ → _ => destruct (decide (r0 = r)) as [->|]; [rewrite list_lookup_alter|by rewrite list_lookup_alter_ne by done] end.
  all: destruct (sfs s !! r); cbn; intros [= <-]; done.
Qed.
Lemma exec_busy_x u s s1 new r h : exec u s = (s1, new) → rcvs s1 !! r = Some h → rc_st h = XBusy → rcvs s !! r = Some h.
Proof.
  intros E. exec_cases u E; repeat (progress (prj; autorewrite with fr_rcvs)); try done.
  all: try (intros [H|[_ H]]%lookup_app_Some; [done|]; by apply list_lookup_singleton_Some in H as [_ <-]).
  all: by intros [(-> & <- & _)|[_ H]]%list_lookup_insert_Some.
Qed.
Lemma reach_fr s : reach s → InvFr s.
Proof.
  revert s. apply reach_inv; unfold InvFr.
  - intros c. split_and!; [|by intros [|[]] h; cbn; intros [= <-]|by intros []..].
    split_and!; cbn. { by intros w ?%elem_of_nil. } all: intros i y w; by rewrite lookup_nil.
  - intros s o Hr (I1 & I2 & I3 & I4). pose proof (api_nwk o s) as HN. split_and!.
    + by apply api_bnd.
    + intros r h Hh Hb. destruct (api_busy_h _ _ _ _ Hh Hb) as [Hh'|?]; [|done]. specialize (I2 _ _ Hh' Hb). lia.
    + intros r h Hh Hb. destruct (api_busy_f _ _ _ _ Hh Hb) as [Hh'|?]; [|done]. specialize (I3 _ _ Hh' Hb). lia.
    + intros r h Hh Hb. destruct (api_busy_x _ _ _ _ Hh Hb) as [Hh'|?]; [|done]. specialize (I4 _ _ Hh' Hb). lia.
  - intros s t u rest s1 new Hr (I1 & I2 & I3 & I4) Ht E Hthr. prj. pose proof (exec_nwk _ _ _ _ E) as HN. rewrite HN. split_and!.
    + change (bnd (nwk s) s1). eapply exec_bnd; [exact E| |done]. destruct u; cbn; try done.
      * intros x Hx. eapply I3; [exact Hx|]. destruct (busyF_at s t _ rest f Hr Ht) as (y & Hy & ?); [cbn; by rewrite Nat.eqb_refl|]. by simplify_eq.
      * intros x Hx. eapply I3; [exact Hx|]. destruct (busyF_at s t _ rest f Hr Ht) as (y & Hy & ?); [cbn; by rewrite Nat.eqb_refl|]. by simplify_eq.
      * intros y Hy. eapply I4; [exact Hy|]. pose proof (reach_busyX s Hr x) as HB. pose proof (msum_head (g_xp x) s t _ rest Ht) as HM. cbn in HM. unfold isn in HM. rewrite Nat.eqb_refl in HM.
        unfold at_ in HB. rewrite Hy in HB. unfold xbusy in HB. destruct (rc_st y); try lia. done.
      * intros x Hx. eapply I3; [exact Hx|]. destruct (busyF_at s t _ rest f Hr Ht) as (y & Hy & ?); [cbn; by rewrite Nat.eqb_refl|]. by simplify_eq.
      * intros h Hh. eapply I2; [exact Hh|]. destruct (busyR_at s t _ rest r Hr Ht) as (y & Hy & ?); [cbn; by rewrite Nat.eqb_refl|]. by simplify_eq.
    + intros r h Hh Hb. eapply I2; [|done]. by eapply exec_busy_h.
    + intros r h Hh Hb. eapply I3; [|done]. by eapply exec_busy_f.
    + intros r h Hh Hb. eapply I4; [|done]. by eapply exec_busy_x.
  - intros s Hr (I1 & I2 & I3 & I4) Ho. autorewrite with fr_nwk fr_hols fr_sfs fr_rcvs. split_and!; try done. by apply bnd_free.
Qed.
Lemma nwk_fresh s : reach s → nwk s ∉ wakes s.
Proof. intros Hr Hin. apply (reach_fr s Hr) in Hin. lia. Qed.
