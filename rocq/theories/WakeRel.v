(** No step resolves something that somebody waits for without waking the registered waker. *)
From stdpp Require Import base numbers list list_numbers.
From Coq Require Import Lia.
From Verif Require Import Prio Heap State Model HeapProofs Frame Lib Effects.

(** Things one can wait for. *)
Inductive key := KO (i : nat) | K1 (i : nat) | KA (i : nat) | KR (i : nat) | KL (i : nat).
(** Unresolved, with the registered waker. *)
Definition pdo (y : one) : option (option waker) := match o_st y with OEmpty w => Some w | _ => None end.
Definition pdc {A} (y : wcell A) : option (option waker) := match wc_st y with WActive w _ => Some w | _ => None end.
Definition pdr (y : rep) : option (option waker) := match rp_st y with REmpty w => Some w | _ => None end.
Definition pdl (y : listener) : option (option waker) := if ls_notified y then None else Some (ls_wk y).

Definition tr (p p' : option (option waker)) (W : list nat) : Prop := p' = p ∨ (p' = None ∧ ∀ w, p = Some (Some w) → w ∈ W).
Definition trl {A} (K : nat → key) (X : list key) (p : A → option (option waker)) (l l' : list A) (W : list nat) : Prop :=
  ∀ i y, l !! i = Some y → ∃ y', l' !! i = Some y' ∧ (K i ∉ X → tr (p y) (p y') W).
Definition Rel (X : list key) (s s1 : state) : Prop :=
  wakes s ⊆ wakes s1 ∧ trl KO X pdo (ones s) (ones s1) (wakes s1) ∧ trl K1 X pdc (cells1 s) (cells1 s1) (wakes s1) ∧
  trl KA X pdc (cellsA s) (cellsA s1) (wakes s1) ∧ trl KR X pdr (reps s) (reps s1) (wakes s1) ∧ trl KL X pdl (lsts s) (lsts s1) (wakes s1).

Section trl.
  Context {A : Type} (K : nat → key) (X : list key) (p : A → option (option waker)).
  Lemma trl_refl l W : trl K X p l l W.
  Proof. intros i y H. exists y. split; [done|]. by left. Qed.
  Lemma trl_insert l i y y' W : l !! i = Some y → (K i ∉ X → tr (p y) (p y') W) → trl K X p l (<[i := y']> l) W.
  Proof.
    intros Hi Ht j z Hj. destruct (decide (i = j)) as [->|Hne].
    - exists y'. rewrite list_lookup_insert by (by eapply lookup_lt_Some). split; [done|]. by simplify_eq.
    - exists z. rewrite list_lookup_insert_ne by done. split; [done|]. by left.
  Qed.
  Lemma trl_mono l l' W W' : W ⊆ W' → trl K X p l l' W → trl K X p l l' W'.
  Proof.
    intros HW H i y Hi. destruct (H i y Hi) as (y' & H1 & H2). exists y'. split; [done|]. intros Hx. destruct (H2 Hx) as [|[? H3]]; [by left|right].
    split; [done|]. intros w Hw. by apply HW, H3.
  Qed.
  Lemma trl_trans l1 l2 l3 W2 W3 : W2 ⊆ W3 → trl K X p l1 l2 W2 → trl K X p l2 l3 W3 → trl K X p l1 l3 W3.
  Proof.
    intros HW H1 H2 i y Hi. destruct (H1 i y Hi) as (y2 & Hi2 & T1). destruct (H2 i y2 Hi2) as (y3 & Hi3 & T2). exists y3. split; [done|].
    intros Hx. specialize (T1 Hx). specialize (T2 Hx). destruct T1 as [E1|[E1 W1]], T2 as [E2|[E2 W2']].
    - left. congruence.
    - right. split; [done|]. intros w Hw. apply W2'. congruence.
    - right. split; [congruence|]. intros w Hw. by apply HW, W1.
    - right. split; [done|]. intros w Hw. by apply HW, W1.
  Qed.
  Lemma trl_app l k W : trl K X p l (l ++ k) W.
  Proof. intros i y H. exists y. split; [by apply lookup_app_l_Some|]. by left. Qed.
End trl.

Lemma Rel_refl X s : Rel X s s.
Proof. unfold Rel. split_and!; try apply trl_refl. done. Qed.
Lemma Rel_trans X s1 s2 s3 : Rel X s1 s2 → Rel X s2 s3 → Rel X s1 s3.
Proof.
  intros (A1 & A2 & A3 & A4 & A5 & A6) (B1 & B2 & B3 & B4 & B5 & B6). unfold Rel. split_and!; try (by eapply trl_trans). by etrans.
Qed.
Lemma rel_step X s0 s s1 : Rel X s s1 → Rel X s0 s → Rel X s0 s1.
Proof. intros. by eapply Rel_trans. Qed.
Lemma Rel_frame X s s1 : ones s1 = ones s → cells1 s1 = cells1 s → cellsA s1 = cellsA s → reps s1 = reps s → lsts s1 = lsts s → wakes s ⊆ wakes s1 → Rel X s s1.
Proof. intros E1 E2 E3 E4 E5 H. unfold Rel. rewrite E1, E2, E3, E4, E5. split_and!; try apply trl_refl. done. Qed.

Lemma wake_incl w s : wakes s ⊆ wakes (wake w s).
Proof. destruct w; [|done]. cbn. intros x Hx. by right. Qed.
Lemma wake_incl' w s s' : wakes s' = wakes s → wakes s ⊆ wakes (wake w s').
Proof. intros <-. apply wake_incl. Qed.
Lemma wake_in w s k : w = Some k → k ∈ wakes (wake w s).
Proof. intros ->. cbn. by left. Qed.
Ltac frm := unfold Rel; split_and!; repeat (progress (prj; autorewrite with fr_ones fr_cells1 fr_cellsA fr_reps fr_lsts fr_wakes)); try apply trl_refl.
Lemma rel_wake X s w : Rel X s (wake w s).
Proof. apply Rel_frame; try (by autorewrite with fr_ones fr_cells1 fr_cellsA fr_reps fr_lsts). apply wake_incl. Qed.

(** Resolve one thing and wake. *)
Lemma res_tr (p p' : option (option waker)) w W : p = Some w → p' = None → (∀ k, w = Some k → k ∈ W) → tr p p' W.
Proof. intros -> -> H. right. split; [done|]. intros k [= ->]. by apply H. Qed.
Ltac res_tac := unfold Rel; split_and!; repeat (progress (prj; autorewrite with fr_ones fr_cells1 fr_cellsA fr_reps fr_lsts)); try apply trl_refl; [by apply wake_incl'|];
  eapply trl_insert; [eassumption|]; intros _; eapply res_tr; [eassumption|done|intros; by eapply wake_in].
Lemma rel_res_one X s o y y' w : ones s !! o = Some y → pdo y = Some w → pdo y' = None → Rel X s (wake w (set_ones (<[o := y']> (ones s)) s)).
Proof. intros. res_tac. Qed.
Lemma rel_res_1 X s o y y' w : cells1 s !! o = Some y → pdc y = Some w → pdc y' = None → Rel X s (wake w (set_cells1 (<[o := y']> (cells1 s)) s)).
Proof. intros. res_tac. Qed.
Lemma rel_res_A X s o y y' w : cellsA s !! o = Some y → pdc y = Some w → pdc y' = None → Rel X s (wake w (set_cellsA (<[o := y']> (cellsA s)) s)).
Proof. intros. res_tac. Qed.
Lemma rel_res_R X s o y y' w : reps s !! o = Some y → pdr y = Some w → pdr y' = None → Rel X s (wake w (set_reps (<[o := y']> (reps s)) s)).
Proof. intros. res_tac. Qed.

Lemma rel_close_reply X s m : Rel X s (close_reply m s).
Proof. unfold close_reply. destruct (reps s !! m) as [[rx [w| | |]]|] eqn:E; try apply Rel_refl. by eapply rel_res_R. Qed.
Lemma rel_drop_umsg X s y m : Rel X s (drop_umsg y m s).
Proof. unfold drop_umsg. eapply Rel_trans; [apply (rel_close_reply X s (um_id m))|]. exact (Rel_refl _ _). Qed.
Lemma rel_fold {B} X (f : state → B → state) l s : (∀ s x, Rel X s (f s x)) → Rel X s (fold_left f l s).
Proof. intros H. revert s; induction l as [|x l IH]; intros s; cbn; [apply Rel_refl|]. eapply Rel_trans; [apply H|apply IH]. Qed.
Lemma rel_drop_umsgs X s y l : Rel X s (drop_umsgs y l s).
Proof. unfold drop_umsgs. apply rel_fold. intros. apply rel_drop_umsg. Qed.
Lemma rel_close1 X s c : Rel X s (close_handle1 s c).
Proof.
  unfold close_handle1. destruct (cells1 s !! c) as [[[] [w m| |]]|] eqn:E; try apply Rel_refl.
  eapply Rel_trans; [|apply rel_drop_umsg]. by eapply rel_res_1.
Qed.
Lemma rel_closeA X s c : Rel X s (close_handleA s c).
Proof. unfold close_handleA. destruct (cellsA s !! c) as [[[] [w m| |]]|] eqn:E; try apply Rel_refl. by eapply rel_res_A. Qed.
Lemma rel_one_send X s o c : Rel X s (one_send o c s).1.
Proof. unfold one_send. destruct (ones s !! o) as [[[] [w| | |]]|] eqn:E; try apply Rel_refl. by eapply rel_res_one. Qed.
Lemma rel_fulfill X ws m s : Rel X s (fulfill ws m s).1.
Proof.
  revert s; induction ws as [|o ws IH]; intros s; cbn [fulfill]; [exact (Rel_refl _ _)|].
  pose proof (rel_one_send X s o (CNewMsg m)) as H. destruct (one_send o (CNewMsg m) s) as [s' []]; cbn [fst] in *; [exact H|].
  eapply Rel_trans; [exact H|apply IH].
Qed.
Lemma rel_close_one X s o : Rel X s (close_one s o).
Proof. unfold close_one. destruct (ones s !! o) as [[rx [w| | |]]|] eqn:E; try apply Rel_refl. by eapply rel_res_one. Qed.
Lemma try_take_trl {A} (key : A → prio) K X n cs ws cs' ws' r W : try_take key n cs ws = (cs', ws', r) → (∀ m k, r = Some (m, Some k) → k ∈ W) → trl K X pdc cs cs' W.
Proof.
  revert cs ws. induction n as [|n IH]; intros cs ws; cbn [try_take]. { intros [= <- <- <-] _. apply trl_refl. }
  destruct (find_remove key cs ws) as [wx [c|]]; [|intros [= <- <- <-] _; apply trl_refl].
  unfold take_message. destruct (cs !! c) as [[[] [w m| |]]|] eqn:E; intros H HW.
  - injection H as <- <- <-. eapply trl_insert; [exact E|]. intros _. right. split; [done|]. intros k [= ->]. by eapply HW.
  - eapply trl_trans; [reflexivity| |by eapply IH]. eapply trl_insert; [exact E|]. intros _. by left.
  - eapply trl_trans; [reflexivity| |by eapply IH]. eapply trl_insert; [exact E|]. intros _. by left.
  - by eapply IH.
  - by eapply IH.
  - by eapply IH.
  - by eapply IH.
Qed.
Lemma rel_take1 X s : Rel X s (take_waiting1 s).1.
Proof.
  unfold take_waiting1. destruct (try_take um_prio _ _ _) as [[cs ws] r] eqn:E.
  assert (Rel X s (match r with Some (m, w) => emit (EvAccept (um_id m)) (wake w (set_ws1 ws (set_cells1 cs s))) | None => set_ws1 ws (set_cells1 cs s) end)) as H; [|by destruct r as [[m w]|]].
  unfold Rel. destruct r as [[m w]|]; split_and!; repeat (progress (prj; autorewrite with fr_ones fr_cells1 fr_cellsA fr_reps fr_lsts)); try apply trl_refl; try done.
  - change (wakes s ⊆ wakes (wake w (set_ws1 ws (set_cells1 cs s)))). by apply wake_incl'.
  - eapply try_take_trl; [exact E|]. intros m' k [= -> ->]. cbn. by left.
  - by eapply try_take_trl.
Qed.
Lemma rel_takeA X s : Rel X s (take_waitingA s).1.
Proof.
  unfold take_waitingA. destruct (try_take bm_prio _ _ _) as [[cs ws] r] eqn:E.
  assert (Rel X s (match r with Some (m, w) => wake w (set_wsA ws (set_cellsA cs s)) | None => set_wsA ws (set_cellsA cs s) end)) as H; [|by destruct r as [[m w]|]].
  unfold Rel. destruct r as [[m w]|]; split_and!; repeat (progress (prj; autorewrite with fr_ones fr_cells1 fr_cellsA fr_reps fr_lsts)); try apply trl_refl; try done.
  - by apply wake_incl'.
  - eapply try_take_trl; [exact E|]. intros m' k [= -> ->]. cbn. by left.
  - by eapply try_take_trl.
Qed.
Lemma rel_bq_put X s b h : Rel X s (bq_put b h s).
Proof. unfold bq_put. case_match; exact (Rel_refl _ _). Qed.
Lemma rel_bcast X s m : Rel X s (send_broadcast m s).
Proof.
  unfold send_broadcast. cbv zeta. eapply (Rel_trans _ _ (fold_left _ _ (set_wrx [] _))); [|exact (Rel_refl _ _)].
  eapply Rel_trans; [|apply rel_fold; intros; apply rel_one_send].
  eapply (Rel_trans _ _ (fold_left _ _ s)); [|exact (Rel_refl _ _)]. apply rel_fold. intros. apply rel_bq_put.
Qed.
Lemma rel_pop1 X s : Rel X s (pop_unicast s).1.
Proof.
  unfold pop_unicast. destruct (heap_pop _ _) as [[m h]|]; [|apply Rel_refl]. cbv zeta. case_match; [exact (Rel_refl _ _)|].
  pose proof (rel_take1 X (set_uq h s)) as HT. destruct (take_waiting1 _) as [s2 [m2|]]; exact HT.
Qed.
Lemma rel_popA X b s : Rel X s (pop_broadcast b s).1.
Proof.
  unfold pop_broadcast. destruct (heap_pop _ _) as [[m h]|]; [|apply Rel_refl]. cbv zeta.
  set (s2 := set_tail _ _). assert (Rel X s s2) as H2 by exact (rel_bq_put X s b h). case_match; [exact H2|].
  pose proof (rel_takeA X s2) as HT. destruct (take_waitingA s2) as [s3 [m2|]]; cbn [fst] in *; [|by eapply Rel_trans].
  eapply Rel_trans; [exact H2|]. eapply Rel_trans; [exact HT|apply rel_bcast].
Qed.
Lemma rel_shutdown X s : Rel X s (exec_rx_shutdown s).
Proof.
  unfold exec_rx_shutdown. cbv zeta.
  eapply Rel_trans; [|apply rel_fold; intros; apply rel_closeA].
  match goal with |- Rel _ _ (set_wsA [] (fold_left close_handle1 ?l (set_ws1 [] (set_bqs [] (drop_umsgs ?y ?k (set_uq [] ?x)))))) =>
    assert (Rel X s x) as H; [|eapply (Rel_trans _ _ (drop_umsgs y k (set_uq [] x))); [eapply (Rel_trans _ _ (set_uq [] x)); [exact H|apply rel_drop_umsgs]|];
      exact (rel_fold X close_handle1 l (set_ws1 [] (set_bqs [] (drop_umsgs y k (set_uq [] x)))) ltac:(intros; apply rel_close1))] end.
  assert (∀ l x, wakes x ⊆ wakes (fold_left (λ s l, if ls_notified l then s else wake (ls_wk l) s) l x)) as Hm.
  { induction l as [|y l IH]; intros x; [done|]. cbn. destruct (ls_notified y); [apply IH|]. etrans; [|apply IH]. apply wake_incl. }
  assert (∀ l x y k, y ∈ l → ls_notified y = false → ls_wk y = Some k → k ∈ wakes (fold_left (λ s l, if ls_notified l then s else wake (ls_wk l) s) l x)) as Hk.
  { induction l as [|z l IH]; intros x y k Hy Hn Hw; [by apply elem_of_nil in Hy|]. cbn. apply elem_of_cons in Hy as [<-|Hy].
    - rewrite Hn, Hw. apply Hm. cbn. by left.
    - by eapply IH. }
  assert (∀ l x, lsts (fold_left (λ s l, if ls_notified l then s else wake (ls_wk l) s) l x) = lsts x) as Hl.
  { induction l as [|y l IH]; intros x; [done|]. cbn. rewrite IH. destruct (ls_notified y); [done|]. by destruct (ls_wk y). }
  assert (∀ X l x, Rel X x (fold_left (λ s l, if ls_notified l then s else wake (ls_wk l) s) l x)) as Hr.
  { intros. apply rel_fold. intros z y. destruct (ls_notified y); [apply Rel_refl|apply rel_wake]. }
  destruct (Hr X (lsts s) s) as (B1 & B2 & B3 & B4 & B5 & B6). unfold Rel. prj. split_and!; try done.
  rewrite Hl. intros i y Hi. exists (LS true (if ls_notified y then ls_wk y else None)).
  split; [change (list_fmap ?f) with (fmap (M:=list) f); by rewrite list_lookup_fmap, Hi|]. intros _. destruct (ls_notified y) eqn:En.
  - left. unfold pdl. by rewrite En.
  - right. split; [done|]. unfold pdl. rewrite En. intros w [= Hw]. eapply Hk; [by eapply elem_of_list_lookup_2|done|done].
Qed.

(** What an action may resolve on its own behalf. *)
Definition own (u : micro) (s : state) : list key :=
  match u with
  | UPollOne _ o | UCancel o | UOneDrop o => [KO o]
  | USendCell1 _ c | UCellDrop1 c => [K1 c]
  | USendCellA _ c | UCellDropA c => [KA c]
  | UReplyPoll _ m => [KR m]
  | URcvPoll x => match rcvs s !! x with Some rc => [KR (rc_m rc)] | None => [] end
  | _ => []
  end.
Lemma own_tr {A} K X (p : A → option (option waker)) l i y' W : K i ∈ X → trl K X p l (<[i := y']> l) W.
Proof.
  intros HX j z Hj. destruct (decide (i = j)) as [->|Hne].
  - exists y'. rewrite list_lookup_insert by (by eapply lookup_lt_Some). split; [done|]. intros Hn. by destruct Hn.
  - exists z. rewrite list_lookup_insert_ne by done. split; [done|]. by left.
Qed.
Lemma poll_reply_rel X m w s : KR m ∈ X → Rel X s (poll_reply m w s).1.
Proof.
  intros HX. unfold poll_reply. destruct (reps s !! m) as [[rx [ww| | |]]|]; try apply Rel_refl; cbn [fst]; unfold Rel; prj; split_and!; try apply trl_refl; try done; by apply own_tr.
Qed.
Lemma rel_hst X r x s : Rel X s (set_hst r x s).
Proof. unfold set_hst. case_match; exact (Rel_refl _ _). Qed.
Lemma rel_deliver X r a s : Rel X s (deliver r a s).
Proof. exact (rel_hst X r (HMsg a) s). Qed.
Lemma exec_rel u s s1 new : exec u s = (s1, new) → Rel (own u s) s s1.
Proof.
  intros E. exec_cases u E; cbn [own]; try exact (Rel_refl _ _); try apply rel_shutdown; try apply rel_drop_umsg;
    repeat match goal with H : rcvs _ !! _ = Some _ |- context [match rcvs _ !! _ with _ => _ end] => rewrite H end.
  all: try (eapply Rel_trans; [|apply rel_deliver]); try match goal with |- Rel ?X _ (emit EvPanic (set_hst ?r ?h ?x)) => eapply Rel_trans; [|exact (rel_hst X r h x)] end.
  all: try match goal with |- Rel ?X ?s _ => first
     [ exact (rel_one_send X s _ _) | exact (rel_pop1 X s) | exact (rel_popA X _ s) | exact (rel_bcast X s _) | exact (rel_fulfill X _ _ s)
     | exact (rel_bcast X (set_nbm _ s) _)] end.
  all: try (eapply rel_res_R; [eassumption|done|done]).
  all: try (eapply Rel_trans; [apply (rel_fulfill [] (wrx s) m s)|]; match goal with |- context [fulfill ?a ?b ?c] => change (fulfill a b c) with (try_fulfill_receiver b c) end).
  all: try (match goal with |- context [poll_reply ?m ?w ?s] => let P := fresh in pose proof (poll_reply_rel [KR m] m w s ltac:(by left)) as P; destruct (poll_reply m w s) as [s2 o2]; cbn [fst] in * end).
  all: try match goal with H : Rel _ ?s ?x |- Rel _ ?s _ => eapply Rel_trans; [exact H|] end.
  all: unfold Rel; repeat (progress (prj; autorewrite with fr_ones fr_cells1 fr_cellsA fr_reps fr_lsts fr_wakes)); split_and!; try apply trl_refl; try apply trl_app; try (apply own_tr; by left); try done.
  all: try (eapply trl_insert; [eassumption|]; by left).
Qed.
Definition own_api (o : op) (s : state) : list key :=
  match o with APollJoin j => match jhs s !! j with Some (JH (Some l) _ _) => [KL l] | _ => [] end | _ => [] end.
Lemma api_rel o s : Rel (own_api o s) s (api o s).
Proof.
  destruct o; cbn [api own_api]; repeat (dgoal; try (exact (Rel_refl _ _))); cbv zeta; unfold add_addr; repeat dgoal; try (exact (Rel_refl _ _));
   unfold Rel; repeat (progress (prj; autorewrite with fr_ones fr_cells1 fr_cellsA fr_reps fr_lsts fr_wakes)); split_and!; try apply trl_refl; try apply trl_app; try (apply own_tr; by left); try done.
Qed.
Lemma free_rel X s : Rel X s (free_chan s).
Proof.
  unfold free_chan. cbv zeta. 
  set (s1 := fold_left close_handle1 _ _). assert (Rel X s s1) as H1 by (exact (rel_fold X close_handle1 (ws1 s) (set_ws1 [] s) (rel_close1 X))).
  set (s2 := fold_left close_handleA _ _). assert (Rel X s1 s2) as H2 by (exact (rel_fold X close_handleA (wsA s1) (set_wsA [] s1) (rel_closeA X))).
  set (s3 := fold_left close_one _ _). assert (Rel X s2 s3) as H3 by (exact (rel_fold X close_one (wrx s2) (set_wrx [] s2) (rel_close_one X))).
  assert (Rel X s3 (drop_umsgs DFreed (uq s3) (set_uq [] s3))) as H4 by (exact (rel_drop_umsgs X (set_uq [] s3) DFreed (uq s3))).
  eapply Rel_trans; [exact H1|]. eapply Rel_trans; [exact H2|]. eapply Rel_trans; [exact H3|]. exact H4.
Qed.

(** The thing number [i] is unresolved with waker [w] registered, or it is resolved and [w] was woken. *)
Definition good {A} (p : A → option (option waker)) (l : list A) (i : nat) (w : waker) (W : list nat) : Prop :=
  ∃ y, l !! i = Some y ∧ (p y = Some (Some w) ∨ (p y = None ∧ w ∈ W)).
Lemma good_tr {A} K X (p : A → option (option waker)) l l' i w W W' : trl K X p l l' W' → W ⊆ W' → K i ∉ X → good p l i w W → good p l' i w W'.
Proof.
  intros H HW HX (y & Hy & Hp). destruct (H i y Hy) as (y' & Hy' & Ht). exists y'. split; [done|]. destruct (Ht HX) as [->|[-> Hk]].
  - destruct Hp as [Hp|[Hp Hw]]; [by left|right; auto].
  - right. split; [done|]. destruct Hp as [Hp|[Hp Hw]]; [by apply Hk|auto].
Qed.
