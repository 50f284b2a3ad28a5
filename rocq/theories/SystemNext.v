(** Actors on executors: [stop_all] is the next thing an actor receives. *)
From stdpp Require Import base numbers list list_numbers.
From Coq Require Import Lia.
From Verif Require Import Prio Heap State Model HeapProofs Frame Lib InvBusy InvCount Effects InvMsg InvOne InvOne2 InvBc Mono Events Spec Bridge FinishSpec FinishProofs
  InvHeap InvDisc InvWait FinalC FinalG FinalI ClaimsA ClaimsB ClaimsC ClaimsE ClaimsN System SystemSpec SystemProofs SystemInv SystemEnd SystemLost StopSpec SystemStop.

(** ** One-shot channels that get no message *)
Definition no_msg (x : ostate) : Prop := match x with OEmpty _ | OFull CNewBroadcast | OFull CShutdown => True | _ => False end.
Definition slot_at (s : state) (o : nat) : Prop := ∃ rx st, ones s !! o = Some (ON rx st) ∧ no_msg st.
Definition slot_ok (s : state) (o : nat) : Prop := o ∉ wrx s ∧ slot_at s o.
Lemma slot_eq s s1 o : ones s1 = ones s → slot_at s o → slot_at s1 o.
Proof. unfold slot_at. by intros ->. Qed.
Lemma one_send_slot k c s o : (k = o → no_msg (OFull c)) → slot_at s o → slot_at (fst (one_send k c s)) o.
Proof.
  intros Hc Ho. unfold one_send. destruct (ones s !! k) as [[[] []]|] eqn:E; try done. cbn [fst].
  destruct Ho as (rx & st & Ho & Hs). eapply (slot_eq (set_ones _ s)); [by repeat (progress (prj; autorewrite with fr_ones))|]. unfold slot_at. prj.
  destruct (decide (k = o)) as [->|Hne]; [|rewrite list_lookup_insert_ne by done; by exists rx, st].
  rewrite list_lookup_insert by (by eapply lookup_lt_Some). eexists _, _. split; [done|]. by apply Hc.
Qed.
Lemma one_sends_slot l s o : slot_at s o → slot_at (fold_left (λ s o, fst (one_send o CNewBroadcast s)) l s) o.
Proof. revert s. induction l as [|k l IH]; intros s H; [done|]. cbn. apply IH. by apply one_send_slot. Qed.
Lemma fulfill_slot ws m s o : o ∉ ws → slot_at s o → slot_ok (fst (fulfill ws m s)) o.
Proof.
  revert s. induction ws as [|k ws IH]; intros s Ho Hs; cbn.
  - split; [prj; by apply not_elem_of_nil|done].
  - apply not_elem_of_cons in Ho as [Ho1 Ho2]. assert (slot_at (fst (one_send k (CNewMsg m) s)) o) as H1 by (apply one_send_slot; [by intros <-|done]).
    destruct (one_send k (CNewMsg m) s) as [s' []]; cbn [fst] in *; [|by apply IH]. split; [done|]. by eapply slot_eq; [|done].
Qed.
Lemma send_slot m s o : slot_at s o → slot_ok (send_broadcast m s) o.
Proof.
  intros H. split; [rewrite wrx_send_broadcast; by apply not_elem_of_nil|]. unfold send_broadcast. cbv zeta.
  match goal with |- slot_at (emit _ (set_tail _ ?x)) _ => eapply (slot_eq x); [done|] end. apply one_sends_slot. eapply slot_eq; [|done].
  by repeat (progress (prj; autorewrite with fr_ones)).
Qed.
Lemma pop_slot b s o : slot_ok s o → slot_ok (fst (pop_broadcast b s)) o.
Proof.
  intros [H1 H2]. unfold pop_broadcast. destruct (heap_pop _ _) as [[m h]|]; [|done]. cbv zeta.
  case_match; cbn [fst]; [split; [by repeat (progress (prj; autorewrite with fr_wrx))|]; eapply slot_eq; [|done]; by repeat (progress (prj; autorewrite with fr_ones))|].
  match goal with |- context [take_waitingA ?x] => assert (slot_ok (fst (take_waitingA x)) o) as H3 end.
  { split; [by repeat (progress (prj; autorewrite with fr_wrx))|]. eapply slot_eq; [|done]. by repeat (progress (prj; autorewrite with fr_ones)). }
  match goal with |- context [take_waitingA ?x] => destruct (take_waitingA x) as [s3 [z|]] end; cbn [fst] in *; [|done]. apply send_slot, H3.
Qed.
Lemma slot_ok_eq s s1 o : ones s1 = ones s → wrx s1 = wrx s → slot_ok s o → slot_ok s1 o.
Proof. intros E1 E2 [H1 H2]. split; [by rewrite E2|by eapply slot_eq]. Qed.
Lemma slot_ins s k x o : slot_at s o → o ≠ k → slot_at (set_ones (<[k := x]> (ones s)) s) o.
Proof. intros (rx & st & H & Hs) Hk. exists rx, st. prj. by rewrite list_lookup_insert_ne. Qed.
Lemma exec_slot u s s1 new o : exec u s = (s1, new) → g_one o u = 0 → g_pc o u = 0 → slot_ok s o → slot_ok s1 o.
Proof.
  intros E Hu1 Hu2 HS. pose proof HS as [H1 H2].
  exec_cases u E; unfold panic_recv; try (eapply slot_ok_eq; [| |exact HS]; by repeat (progress (prj; autorewrite with fr_wrx fr_ones))).
  all: try (match goal with |- context [fst (try_fulfill_receiver ?m ?z)] =>
      eapply (slot_ok_eq (fst (try_fulfill_receiver m z))); [| |by apply fulfill_slot] end; by repeat (progress (prj; autorewrite with fr_wrx fr_ones))).
  all: try (match goal with |- context [fst (pop_broadcast ?b ?z)] =>
      eapply (slot_ok_eq (fst (pop_broadcast b z))); [| |by apply pop_slot] end; by repeat (progress (prj; autorewrite with fr_wrx fr_ones))).
  all: try (match goal with |- context [<[?k := ?x]> (ones ?z)] =>
      eapply (slot_ok_eq (set_ones (<[k := x]> (ones z)) z)); [by repeat (progress (prj; autorewrite with fr_ones))|by repeat (progress (prj; autorewrite with fr_wrx))|];
      split; [done|]; apply slot_ins; [done|]; intros ->; cbn in Hu1, Hu2; unfold isn in *; rewrite Nat.eqb_refl in *; done end).
  all: try (by apply send_slot).
  - split; [prj; by apply not_elem_of_nil|done].
  - split; [by autorewrite with fr_wrx|]. by apply one_send_slot.
  - destruct H2 as (rx & st & Ho & Hs). split; [|exists rx, st; split; [by apply lookup_app_l_Some|done]].
    prj. rewrite elem_of_app, elem_of_list_singleton. apply lookup_lt_Some in Ho. intros [?|?]; [done|lia].
  - destruct H2 as (rx & st & Ho & Hs). split; [|exists rx, st; split; [by apply lookup_app_l_Some|done]].
    prj. rewrite elem_of_app, elem_of_list_singleton. apply lookup_lt_Some in Ho. intros [?|?]; [done|lia].
Qed.
Lemma api_slot o s k : slot_ok s k → slot_ok (api o s) k.
Proof.
  apply slot_ok_eq; destruct o; cbn [api]; repeat (dgoal; try done); cbv zeta; unfold add_addr; repeat dgoal; by repeat (progress (prj; autorewrite with fr_wrx fr_ones)).
Qed.
Lemma two_threads g s t t' p p' : thr s !! t = Some p → thr s !! t' = Some p' → t ≠ t' → Σ g p + Σ g p' ≤ msum g s.
Proof.
  intros H1 H2 Hn. unfold msum. pose proof (sum_insert (Σ g) (thr s) t p [] H1) as H3.
  assert (<[t:=[]]> (thr s) !! t' = Some p') as H4 by (by rewrite list_lookup_insert_ne). pose proof (sum_lookup (Σ g) _ _ _ H4) as H5. cbn [sum_list_with] in H3. lia.
Qed.

(** ** Receive futures that can only get a message to stop *)
Definition doomed (s : state) (r : nat) : Prop :=
  ∃ h, hols s !! r = Some h ∧
   (match h_st h with HMsg a | HDispNew a => stopping a = true | HGone => True | _ => False end ∨
    (∃ n, BStop n ∈ bq_get s (h_bq h)) ∧
    (h_st h = HRecvNew ∨ (∃ o, h_st h = HRecvWait o ∧ slot_ok s o) ∨
     h_st h = HRecvBusy ∧ ∃ t u rest, thr s !! t = Some (u :: rest) ∧ (u = UTryRecv r ∨ u = UNextBc r ∨ ∃ o, u = UPollOne r o ∧ slot_ok s o))).
Lemma stop_max n m : ple (bm_prio (BStop n)) (bm_prio m) → ∃ j, m = BStop j.
Proof. destruct m; [done|]. by eexists. Qed.
Lemma doomed_thread s t u rest s1 new r h : reach s → thr s !! t = Some (u :: rest) → exec u s = (s1, new) → hols s !! r = Some h → h_st h = HRecvBusy →
  (∃ n, BStop n ∈ bq_get s (h_bq h)) → (u = UTryRecv r ∨ u = UNextBc r ∨ ∃ o, u = UPollOne r o ∧ slot_ok s o) →
  (∃ h' a, hols s1 !! r = Some h' ∧ h_st h' = HMsg a ∧ stopping a = true) ∨
  (bqueues s1 = bqueues s ∧ ∃ h', hols s1 !! r = Some h' ∧ h_bq h' = h_bq h ∧
    ((∃ o, h_st h' = HRecvWait o ∧ slot_ok s1 o) ∨ (h_st h' = HRecvBusy ∧ new = [UNextBc r]))).
Proof.
  intros Hr Ht E Hh Hs [n Hn] Hu. assert (r < length (hols s)) as Hl by by eapply lookup_lt_Some. destruct Hu as [-> |[-> |(o & -> & Ho)]].
  - left. destruct (try_recv_cases s s1 new r h Hr Hh E) as [(m & hp & l & Hp & _ & Hhols & _ & _ & _ & _ & _ & H2 & _)|
      [(m & hp & l & Hp & _ & Hhols & _ & _ & _ & _ & _ & H2 & _)|[(_ & H2 & _)|(_ & H2 & _)]]].
    + specialize (H2 _ Hn). done.
    + destruct (stop_max n m (H2 _ Hn)) as [j ->]. rewrite Hhols, list_lookup_insert by done. by eexists _, _.
    + unfold backlog in H2. unfold bq_get in Hn. rewrite H2 in Hn. by apply elem_of_nil in Hn.
    + unfold backlog in H2. unfold bq_get in Hn. rewrite H2 in Hn. by apply elem_of_nil in Hn.
  - left. cbn [exec] in E. rewrite Hh in E. destruct (reach_heap s Hr) as [_ HB]. apply (bq_get_ok s (h_bq h)) in HB.
    change (bq_get s (h_bq h)) with (backlog s (h_bq h)) in *.
    destruct (heap_pop bm_prio (backlog s (h_bq h))) as [[m hp]|] eqn:Hp; [|apply heap_pop_None in Hp; rewrite Hp in Hn; by apply elem_of_nil in Hn].
    destruct (pop_b s (h_bq h) m hp Hp) as (s' & l & EP & _ & _ & _ & _ & EH). rewrite EP in E. injection E as <- <-.
    assert (ple (bm_prio (BStop n)) (bm_prio m)) as HP by (apply ple_leb; apply (heap_peek_max bm_prio _ _ HB (heap_pop_peek _ _ _ _ Hp) _ Hn)).
    destruct (stop_max n m HP) as [j ->]. rewrite hols_deliver, EH, list_lookup_alter, Hh. by eexists _, _.
  - cbn [exec] in E. rewrite Hh in E. unfold exec_poll_one in E. pose proof Ho as [Hw (rx & st & Hones & Hst)]. rewrite Hones in E. destruct st as [w|[m| |]| |]; try done.
    + injection E as <- <-. right. split; [by repeat (progress (prj; autorewrite with fr_bqueues))|]. repeat (progress (prj; autorewrite with fr_hols)). rewrite list_lookup_alter, Hh.
      eexists. split; [done|]. split; [done|]. left. exists o. split; [done|]. split; [by repeat (progress (prj; autorewrite with fr_wrx))|].
      eapply (slot_eq (set_ones (<[o:=ON rx (OEmpty (Some (h_wk h)))]> (ones s)) s)); [by repeat (progress (prj; autorewrite with fr_ones))|]. unfold slot_at. prj.
      rewrite list_lookup_insert by (by eapply lookup_lt_Some). by eexists _, _.
    + injection E as <- <-. right. split; [done|]. exists h. split; [done|]. split; [done|]. by right.
    + injection E as <- <-. left. rewrite hols_deliver. prj. rewrite list_lookup_alter, Hh. by eexists _, _.
Qed.
Lemma owned_collect s r h : hols s !! r = Some h → h_st h ≠ HGone → collect s = s.
Proof. intros H1 H2. unfold collect. by rewrite (owned_hol s r h H1 H2). Qed.
Lemma busy_from s r : reach s → (∃ t u rest, thr s !! t = Some (u :: rest) ∧ g_rf r u = 1) → ∃ h, hols s !! r = Some h ∧ h_st h = HRecvBusy.
Proof. intros Hr (t & u & rest & Ht & Hg). by apply (busyR_at s t u rest r). Qed.
Definition only_busy (s : state) (r : nat) : Prop :=
  ∀ h r' h', hols s !! r = Some h → hols s !! r' = Some h' → h_st h' = HRecvBusy → h_bq h' = h_bq h → r' = r.
Lemma doomed_ch s o r : reach s → doomed s r → touched o ≠ Some r → only_busy s r → doomed (step s o) r.
Proof.
  intros Hr (h & Hh & HD) Hto Hob. pose proof (reach_one s o Hr) as Hr'.
  destruct (step_same2 s o r h Hh) as (h1 & Hh1 & HB1 & _). destruct (hol_keep s o r h Hr Hh Hto) as (h2 & Hh2 & HK). rewrite Hh1 in Hh2. injection Hh2 as <-.
  destruct HD as [HD|[[n Hn] HD]].
  { exists h1. split; [done|]. left. destruct HK as [[-> _]|(E & _)]; [done|]. by rewrite E in HD. }
  assert (h_st h ≠ HGone) as Hg by (destruct HD as [-> |[(? & -> & _)|[-> _]]]; done).
  assert (h_st h1 ≠ HGone) as Hg1 by (destruct HK as [[-> _]|(_ & _ & ?)]; done).
  assert (owned_queue s (h_bq h)) as Hoq by by exists r, h.
  assert (∀ h' a, hols (step s o) !! r = Some h' → h_st h' = HMsg a → stopping a = true → doomed (step s o) r) as HM.
  { intros h' a Hh' Hs' Ha. exists h'. split; [done|]. left. by rewrite Hs'. }
  destruct (step_keep_b _ o (h_bq h) s Hr Hoq Hn) as [Hn1|[(r' & x & x' & Hx & Hsx & Hbx & Hx' & Hsx') _]].
  2: { assert (r' = r) as -> by by eapply Hob. by eapply HM. }
  assert (∀ z, step s o = z → h_st h1 = HRecvNew ∨ (∃ o, h_st h1 = HRecvWait o ∧ slot_ok z o) ∨
     h_st h1 = HRecvBusy ∧ (∃ t u rest, thr z !! t = Some (u :: rest) ∧ (u = UTryRecv r ∨ u = UNextBc r ∨ ∃ o, u = UPollOne r o ∧ slot_ok z o)) → doomed z r) as HG.
  { intros z <- H. exists h1. split; [done|]. right. rewrite HB1. split; [by exists n|done]. }
  assert (∃ z, step s o = z ∧ z = match o with Step t => do_step t s | _ => api o s end) as (z & Ez & Dz).
  { eexists. split; [|reflexivity]. unfold step in *. rewrite collect_hols in Hh1. by eapply owned_collect. }
  rewrite Ez in *. destruct HD as [HD|[(k & HD & Hk)|[HD HT]]].
  - apply (HG z); [done|]. left. destruct HK as [[-> _]|(E & _)]; [done|]. by rewrite E in HD.
  - apply (HG z); [done|]. right; left. exists k. split; [destruct HK as [[-> _]|(E & _)]; [done|by rewrite E in HD]|].
    destruct o as [t| | | | | | | | | | | | | | | | | | | | | | | | | | |]; try (rewrite Dz; by apply api_slot). rewrite Dz. unfold do_step.
    destruct (thr s !! t) as [[|u rest]|] eqn:Ht; try done. destruct (exec u s) as [s1 new] eqn:E. eapply (slot_ok_eq s1); [done..|].
    destruct (reach_own s Hr k) as [O1 O2]. pose proof (sum_lookup (h_wait k) _ _ _ Hh) as H3. unfold h_wait in H3 at 1. rewrite HD in H3. unfold isn in H3. rewrite Nat.eqb_refl in H3.
    pose proof (at_bound o_live (ones s) k 1 ltac:(intros x; unfold o_live; destruct (o_rx x); lia)).
    pose proof (msum_head (g_one k) s t u rest Ht). pose proof (msum_head (g_pc k) s t u rest Ht).
    apply (exec_slot u s s1 new k E); [lia|lia|done].
  - destruct HT as (t & u & rest & Ht & Hu).
    assert (g_rf r u = 1) as Hgu by (destruct Hu as [-> |[-> |(k & -> & _)]]; cbn; by rewrite Nat.eqb_refl).
    assert (∀ s2, thr z !! t = Some (u :: rest) → z = s2 → (∀ k, u = UPollOne r k → slot_ok s k → slot_ok s2 k) →
      doomed z r) as HF.
    { intros s2 Ht2 <- HS. apply (HG z); [done|]. right; right. destruct (busyR_at z t u rest r Hr' Ht2 Hgu) as (h3 & Hh3 & Hs3). rewrite Hh1 in Hh3. injection Hh3 as <-. split; [done|].
      exists t, u, rest. split; [done|]. destruct Hu as [-> |[-> |(k & -> & Hk)]]; [by left|by right; left|]. right; right. exists k. split; [done|]. by apply HS. }
    destruct (api_thr o s) as [kk Ekk].
    destruct o as [t'| | | | | | | | | | | | | | | | | | | | | | | | | | |]; try (apply (HF z); [rewrite Dz, Ekk; by apply lookup_app_l_Some|done|intros ? _ ?; rewrite Dz; by apply api_slot]).
    unfold do_step in Dz. destruct (decide (t' = t)) as [->|Hne].
    + rewrite Ht in Dz. destruct (exec u s) as [s1 new] eqn:E.
      destruct (doomed_thread s t u rest s1 new r h Hr Ht E Hh HD ltac:(by exists n) Hu) as [(h' & a & Hh' & Hs' & Ha)|(_ & h' & Hh' & _ & Hst)].
      * apply (HM h' a); [by rewrite Dz|done..].
      * apply (HG z); [done|]. rewrite Dz in Hh1. prjin Hh1. rewrite Hh' in Hh1. injection Hh1 as <-. destruct Hst as [(k & Hk & Hsk)|[Hb ->]].
        { right; left. exists k. split; [done|]. rewrite Dz. by eapply (slot_ok_eq s1). }
        { right; right. split; [done|]. exists t, (UNextBc r), rest. split; [|by right; left]. rewrite Dz. prj.
          pose proof (exec_thr u s) as Et. rewrite E in Et. cbn in Et. rewrite Et. rewrite list_lookup_insert by (by eapply lookup_lt_Some). done. }
    + destruct (thr s !! t') as [[|u' rest']|] eqn:Ht'; try (by apply (HF s); [rewrite Dz|..]).
      destruct (exec u' s) as [s1 new] eqn:E. pose proof (exec_thr u' s) as Et. rewrite E in Et. cbn in Et.
      apply (HF z); [rewrite Dz; prj; rewrite Et, list_lookup_insert_ne by done; done|done|]. intros k Eu Hk. rewrite Dz. eapply (slot_ok_eq s1); [done..|].
      destruct (reach_own s Hr k) as [O1 O2]. pose proof (at_bound o_live (ones s) k 1 ltac:(intros x; unfold o_live; destruct (o_rx x); lia)).
      pose proof (two_threads (g_one k) s t t' _ _ Ht Ht' ltac:(done)) as H5. pose proof (two_threads (g_pc k) s t t' _ _ Ht Ht' ltac:(done)) as H6.
      subst u. cbn [sum_list_with g_one g_pc] in H5, H6. unfold isn in H5 at 1. unfold isn in H6 at 1. rewrite Nat.eqb_refl in *.
      apply (exec_slot u' s s1 new k E); [lia|lia|done].
Qed.

(** ** The tasks *)
Lemma only_task y i t r : SInv y → own y → qinv y → tk y !! i = Some t → t_st t = TAwait r → only_busy (ch y) r.
Proof.
  intros I HW [Q1 Q2] Ht Es h r' h' Hh Hh' Hs Hb. destruct (Q2 i t r Ht Es) as (x & Hx & Hm). rewrite Hh in Hx. injection Hx as <-.
  destruct (HW r' h' Hh') as [E|[E|(j & tj & Hj & Ej)]]; [by rewrite Hs in E..|]. destruct (Q2 j tj r' Hj Ej) as (x & Hx & Hmj).
  rewrite Hh' in Hx. injection Hx as <-. rewrite Hb in Hmj. pose proof (Q1 _ _ _ Hm Hmj) as E.
  destruct (decide (i = j)) as [<-|Hne]; [rewrite Ht in Hj; injection Hj as <-; rewrite Es in Ej; by injection Ej as <-|].
  exfalso. apply (proj1 (proj2 I i j t tj Hne Ht Hj)); [by rewrite Es|by rewrite Ej|done].
Qed.
Lemma doomed_own s v h r o : reach s → hols s !! r = Some h → await_op v h r = Some o → doomed s r → doomed (step s o) r.
Proof.
  intros Hr Hh Ho (h0 & Hh0 & HD). rewrite Hh in Hh0. injection Hh0 as <-. assert (r < length (hols s)) as Hl by by eapply lookup_lt_Some.
  assert (∀ n, BStop n ∈ bq_get s (h_bq h) → h_st h ≠ HGone → (∀ t, o ≠ Step t) → BStop n ∈ bq_get (step s o) (h_bq h)) as HB.
  { intros n Hn Hg Hst. destruct (step_keep_b _ o (h_bq h) s Hr ltac:(by exists r, h) Hn) as [?|[_ [t E]]]; [done|]. by apply Hst in E. }
  destruct h as [b hs k w]. unfold await_op in Ho. cbn [h_st h_bq] in *. unfold doomed.
  destruct hs as [| | |q|a|a|a|]; try done; injection Ho as <-.
  - destruct HD as [?|[[n Hn] _]]; [done|]. specialize (HB n Hn ltac:(done) ltac:(done)). unfold step in *. rewrite collect_hols, collect_thr. cbn [api] in *. rewrite Hh in *. prj.
    rewrite list_lookup_insert by done. eexists. split; [done|]. right. split; [by exists n|]. right; right. split; [done|]. exists (length (thr s)), (UTryRecv r), [].
    rewrite lookup_app_r, Nat.sub_diag by lia. split; [done|by left].
  - destruct HD as [?|[[n Hn] HD]]; [done|]. specialize (HB n Hn ltac:(done) ltac:(done)). destruct HD as [?|[(o & Eo & Hok)|[? _]]]; [done| |done]. injection Eo as <-.
    pose proof (api_slot (APollRecv r) s q Hok) as Hok2. unfold step in *. rewrite collect_hols, collect_thr. cbn [api] in *. rewrite Hh in *. revert HB.
    match goal with |- context [collect ?z] => assert (collect z = z) as -> end; [eapply owned_collect; [prj; by apply list_lookup_insert|done]|]. intros HB. prj.
    rewrite list_lookup_insert by done. eexists. split; [done|]. right. split; [by exists n|]. right; right. split; [done|]. exists (length (thr s)), (UPollOne r q), [].
    rewrite lookup_app_r, Nat.sub_diag by lia. split; [done|]. right; right. by exists q.
  - destruct HD as [HD|[_ [?|[(? & ? & _)|[? _]]]]]; try done. unfold step. rewrite collect_hols. cbn [api]. rewrite Hh. prj. rewrite list_lookup_insert by done.
    eexists. split; [done|]. by left.
  - destruct HD as [HD|[_ [?|[(? & ? & _)|[? _]]]]]; try done. unfold step. rewrite collect_hols. cbn [api]. rewrite Hh.
    exists (HO b HGone k w). split; [|by left]. destruct a as [|[]|]; try done; prj; by rewrite list_lookup_insert.
  - destruct HD as [HD|[_ [?|[(? & ? & _)|[? _]]]]]; done.
Qed.
Definition last_recv (F : nat → Prop) (i : nat) (y : sys) : Prop := bound y i ∧ ∀ r, awaits y i r → F r → doomed (ch y) r.
Lemma last_step F y l i : reachable (ch y) → SInv y → own y → qinv y → last_recv F i y → last_recv F i (sys_step y l).
Proof.
  intros Hrr I HH Q [HB HD]. pose proof (reachable_reach _ Hrr) as Hr. split; [by apply bound_step|]. intros r (t & Ht & Es) HF. destruct l as [o|h|j v|j]; cbn [sys_step] in *.
  - destruct (foreign y o) eqn:Hf; [|apply HD; [by exists t|done]]. cbn [ch tk] in *. apply doomed_ch; [done|apply HD; [by exists t|done]| |by eapply only_task].
    intros Ho. assert (of1 t r = false) as H1.
    { eapply of_task_1; [|done]. destruct o; try done; cbn in Ho, Hf; injection Ho as <-; by apply negb_true_iff. }
    unfold of1 in H1. rewrite Es, Nat.eqb_refl in H1. done.
  - destruct (hols (ch y) !! h) as [[b [] k w]|] eqn:Hh; try (apply HD; [by exists t|done]). destruct (of_task y h); [apply HD; [by exists t|done]|]. cbn [ch tk] in *.
    apply lookup_app_Some in Ht as [Ht|[_ Ht]]; [apply HD; [by exists t|done]|]. apply list_lookup_singleton_Some in Ht as [_ <-]. done.
  - destruct (tk y !! j) as [t'|] eqn:Hj; [|apply HD; [by exists t|done]]. destruct (task_step t' v (ch y)) as [[s' st]|] eqn:E; [|apply HD; [by exists t|done]]. cbn [ch tk] in *.
    destruct (decide (j = i)) as [->|Hne].
    + rewrite list_lookup_insert in Ht by (by eapply lookup_lt_Some). injection Ht as <-. cbn [t_st] in Es. subst st.
      destruct (task_cases _ _ _ _ _ E) as [(_ & H & _)|[(Es & -> & H)|[(q & h & o & Es & Hh & Ho & -> & H)|(_ & _ & H)]]]; [by destruct (H r)| | |done].
      * injection H as ->. destruct HB as [(t & Ht & HW)|(t & b & n & Ht & _ & (x & Hx & Hs & Hb) & Hn)]; rewrite Hj in Ht; injection Ht as <-; [unfold wst in HW; by rewrite Es in HW|].
        destruct (bq_some _ _ x Hr Hx ltac:(by rewrite Hs)) as [q Hq].
        destruct (step_keep_b _ (ANext (t_mb t')) b (ch y) Hr ltac:(exists (t_mb t'), x; by rewrite Hs) Hn) as [Hn'|[_ [? [=]]]].
        exists (HO b HRecvNew true 0). split; [|right; split; [by exists n|by left]]. unfold step. rewrite collect_hols. cbn [api]. rewrite Hx, Hs. cbn [is_mailbox]. rewrite Hq. prj.
        rewrite lookup_app_r, Nat.sub_diag by lia. by rewrite Hb.
      * injection H as <-. apply (doomed_own (ch y) v h r o Hr Hh Ho). apply HD; [by exists t'|done].
    + rewrite list_lookup_insert_ne in Ht by done. assert (doomed (ch y) r) as Hd by (apply HD; [by exists t|done]).
      destruct (task_other y j i t' t v s' st I Hne Hj Ht E) as [-> |(o & -> & Ho)]; [done|]. apply doomed_ch; [done..| |by eapply only_task].
      intros E1. apply Ho in E1. unfold of1 in E1. by rewrite Es, Nat.eqb_refl in E1.
  - destruct (tk y !! j) as [t'|] eqn:Hj; [|apply HD; [by exists t|done]]. destruct (task_cancel t' (ch y)) as [[s' st]|] eqn:E; [|apply HD; [by exists t|done]]. cbn [ch tk] in *.
    destruct (decide (j = i)) as [->|Hne].
    + rewrite list_lookup_insert in Ht by (by eapply lookup_lt_Some). injection Ht as <-. cbn [t_st] in Es. subst st. by destruct (cancel_cases _ _ _ _ E) as (_ & ? & _).
    + rewrite list_lookup_insert_ne in Ht by done. assert (doomed (ch y) r) as Hd by (apply HD; [by exists t|done]).
      destruct (cancel_other y j i t' t s' st I Hne Hj Ht E) as [-> |(o & -> & Ho & _)]; [done|]. apply doomed_ch; [done..| |by eapply only_task].
      intros E1. apply Ho in E1. unfold of1 in E1. by rewrite Es, Nat.eqb_refl in E1.
Qed.
Lemma last_first y t i : reachable (ch y) → SInv y → i < length (tk y) → next_action (ch y) t UStopAll → last_recv (fresh (ch y)) i (sys_step y (SCall (Step t))).
Proof.
  intros Hrr I Hi Hna. pose proof (reachable_reach _ Hrr) as Hr. destruct (lookup_lt_is_Some_2 (tk y) i Hi) as [ti Hti].
  assert (∀ q x, hols (ch y) !! q = Some x → h_st x ≠ HGone → BStop (nbm (ch y)) ∈ bq_get (step (ch y) (Step t)) (h_bq x)) as HP.
  { intros q x Hx Hg. apply (c08_put (ch y) t (h_bq x) Hrr Hna). by exists q, x. }
  split.
  - assert (t_st ti = TDone ∨ t_st ti ≠ TDone) as [Hd|Hd] by (destruct (t_st ti); auto).
    + left. apply stops_step; [done..|]. exists ti. split; [done|]. unfold wst. by rewrite Hd.
    + right. destruct (tinv_mb _ _ (proj1 I _ _ Hti) Hd) as (x & Hx & Hs). exists ti, (h_bq x), (nbm (ch y)). cbn [sys_step foreign ch tk]. split_and!; try done.
      * apply mbq_keep; [done..|]. by exists x.
      * apply (HP _ _ Hx). by rewrite Hs.
  - cbn [sys_step foreign ch tk]. intros r (t1 & Ht1 & Es) HF. cbn [ch tk] in *. destruct HF as [HF|[(h & Hh & Hs)|(h & o & rx & w & Hh & Hs & Ho)]].
    + pose proof (proj1 I _ _ Ht1) as HT. unfold tinv in HT. rewrite Es in HT. destruct HT as [_ (x & Hx & _)]. by rewrite HF in Hx.
    + destruct (hol_keep (ch y) (Step t) r h Hr Hh ltac:(done)) as (h1 & Hh1 & [[E _]|(E & _)]); [|by rewrite Hs in E].
      destruct (step_same2 (ch y) (Step t) r h Hh) as (h2 & Hh2 & HB & _). rewrite Hh1 in Hh2. injection Hh2 as <-.
      exists h1. split; [done|]. right. rewrite HB, E. split; [eexists; apply (HP _ _ Hh); by rewrite Hs|by left].
    + destruct (hol_keep (ch y) (Step t) r h Hr Hh ltac:(done)) as (h1 & Hh1 & [[E _]|(E & _)]); [|by rewrite Hs in E].
      destruct (step_same2 (ch y) (Step t) r h Hh) as (h2 & Hh2 & HB & _). rewrite Hh1 in Hh2. injection Hh2 as <-.
      exists h1. split; [done|]. right. rewrite HB, E. split; [eexists; apply (HP _ _ Hh); by rewrite Hs|]. right; left. exists o. split; [done|].
      destruct Hna as [rest Ht]. unfold step in *. rewrite collect_hols in Hh1. rewrite (owned_collect _ r h1 Hh1) by (by rewrite E, Hs). unfold do_step. rewrite Ht. cbn [exec].
      eapply (slot_ok_eq (send_broadcast _ _)); [done..|]. apply send_slot. by eexists _, _.
Qed.
Lemma stop_next c l t l' i r : let y := sys_run (sys_init c) l in hands_off (l ++ l') → next_action (ch y) t UStopAll → i < length (tk y) → fresh (ch y) r →
  let z := sys_run y (SCall (Step t) :: l') in awaits z i r → ¬ in_handler (ch z) r.
Proof.
  intros y Hho Hna Hi HF z Ha (h & a & Hh & Hs).
  assert (hands_off l) as Hl by (intros h1 H1; apply (Hho h1), elem_of_app; by left).
  assert (∀ k, hands_off k → own (sys_run y (SCall (Step t) :: k)) ∧ last_recv (fresh (ch y)) i (sys_run y (SCall (Step t) :: k))) as HK.
  { intros k. induction k as [|x k IH] using rev_ind; intros Hk.
    - change (sys_run y [SCall (Step t)]) with (sys_step y (SCall (Step t))). destruct (sys_reach y) as [Hrr I]; [by exists c, l|].
      split; [apply own_step; [by apply reachable_reach|done|by apply own_run|done]|]. by apply last_first.
    - destruct IH as [IH1 IH2]; [intros h1 H1; apply (Hk h1), elem_of_app; by left|]. rewrite app_comm_cons, sys_run_snoc. set (z1 := sys_run y (SCall (Step t) :: k)) in *.
      assert (sys_reachable z1) as Hz by (apply sys_reachable_run; by exists c, l). destruct (sys_reach z1 Hz) as [Hrr I].
      assert (qinv z1) as Hqz by (destruct Hz as (c1 & l1 & ->); apply qinv_run).
      split; [apply own_step; [by apply reachable_reach|done..|]|by apply last_step]. intros h1 ->. apply (Hk h1), elem_of_app. right. by apply elem_of_list_singleton. }
  destruct (HK l') as [_ [_ HD]]; [intros h1 H3; apply (Hho h1), elem_of_app; by right|]. destruct (HD r Ha HF) as (h2 & Hh2 & H).
  fold z in Hh2. rewrite Hh in Hh2. injection Hh2 as <-. rewrite Hs in H. destruct H as [?|[_ [?|[(? & ? & _)|[? _]]]]]; done.
Qed.

(** ** Failed starts *)
Lemma tk_back y x i t : tk (sys_step y x) !! i = Some t →
  (tk y !! i = Some t ∧ (∀ v, x = STask i v → task_step t v (ch y) = None)) ∨ (tk y !! i = None ∧ t_st t = TStart) ∨
  (∃ t0 v s', x = STask i v ∧ tk y !! i = Some t0 ∧ task_step t0 v (ch y) = Some (s', t_st t) ∧ t_mb t0 = t_mb t) ∨
  ∃ t0 s', x = SCancel i ∧ tk y !! i = Some t0 ∧ task_cancel t0 (ch y) = Some (s', t_st t) ∧ t_mb t0 = t_mb t.
Proof.
  destruct x as [o|h|j v|j]; cbn [sys_step].
  - intros H. left. split; [by destruct (foreign y o)|done].
  - intros H. destruct (hols (ch y) !! h) as [[b [] k w]|]; try (left; split; done). destruct (of_task y h); [left; split; done|]. cbn [tk] in H.
    apply lookup_app_Some in H as [H|[Hl H]]; [left; split; done|]. apply list_lookup_singleton_Some in H as [H <-]. right; left. split; [|done]. apply lookup_ge_None_2. lia.
  - intros H. destruct (tk y !! j) as [t'|] eqn:Hj; [|left; split; [done|]; intros v' [= -> ->]; congruence].
    destruct (task_step t' v (ch y)) as [[s' st]|] eqn:E; [|left; split; [done|]; intros v' [= -> ->]; congruence]. cbn [tk] in H.
    destruct (decide (j = i)) as [->|Hne]; [|rewrite list_lookup_insert_ne in H by done; left; split; [done|]; intros ? [=]; done].
    rewrite list_lookup_insert in H by (by eapply lookup_lt_Some). injection H as <-. right; right; left. by exists t', v, s'.
  - intros H. destruct (tk y !! j) as [t'|] eqn:Hj; [|left; split; done].
    destruct (task_cancel t' (ch y)) as [[s' st]|] eqn:E; [|left; split; done]. cbn [tk] in H.
    destruct (decide (j = i)) as [->|Hne]; [|rewrite list_lookup_insert_ne in H by done; left; split; done].
    rewrite list_lookup_insert in H by (by eapply lookup_lt_Some). injection H as <-. do 3 right. by exists t', s'.
Qed.
Lemma snoc_split {A} (l : list A) x l1 l2 : l ++ [x] = l1 ++ l2 → (l2 = [] ∧ l1 = l ++ [x]) ∨ ∃ l3, l2 = l3 ++ [x] ∧ l = l1 ++ l3.
Proof.
  destruct l2 as [|z l2 _] using rev_ind; [rewrite app_nil_r; intros <-; by left|]. rewrite app_assoc. intros H. apply app_inj_tail in H as [-> ->]. right. by exists l2.
Qed.
Definition no_await (c : option nat) (l : list sop) (i : nat) : Prop :=
  ∀ l1 l2 r, l = l1 ++ l2 → ¬ awaits (sys_run (sys_init c) l1) i r ∧ ¬ in_stopped (sys_run (sys_init c) l1) i.
Lemma no_await_snoc c l x i : no_await c l i → (∀ t r, tk (sys_run (sys_init c) (l ++ [x])) !! i = Some t → t_st t ≠ TAwait r ∧ t_st t ≠ TStop) → no_await c (l ++ [x]) i.
Proof.
  intros H1 H2 l1 l2 r E. apply snoc_split in E as [[-> ->]|(l3 & -> & E)]; [split; intros (t & Ht & Es); destruct (H2 t r Ht); done|by apply (H1 l1 l3)].
Qed.
Lemma start_error c l i : (∀ t, tk (sys_run (sys_init c) l) !! i = Some t → t_st t = TStart → no_await c l i) ∧ (tk (sys_run (sys_init c) l) !! i = None → no_await c l i) ∧
  (start_failed c l i → no_await c l i ∧ ∃ t, tk (sys_run (sys_init c) l) !! i = Some t ∧ (t_st t = TDrop ∨ t_st t = TDone)).
Proof.
  induction l as [|x l (IH1 & IH2 & IH3)] using rev_ind.
  - split_and!; [done| |by intros ([|] & v & l2 & t & E & _)]. intros _ [|] l2 r E; [|done]. split; by intros (t & Ht & _).
  - set (y := sys_run (sys_init c) l) in *. pose proof (sys_run_snoc (sys_init c) l x) as Ey. fold y in Ey.
    assert (∀ t, tk y !! i = Some t → ∃ t', tk (sys_step y x) !! i = Some t') as HL.
    { intros t Ht. apply lookup_lt_is_Some_2. apply lookup_lt_Some in Ht. pose proof (tk_len y x). lia. }
    split_and!.
    + intros t Ht Es. apply no_await_snoc; [|intros t' r' Ht'; rewrite Ht in Ht'; injection Ht' as <-; by rewrite Es]. rewrite Ey in Ht.
      destruct (tk_back y x i t Ht) as [[H _]|[[H _]|[(t0 & v & s' & -> & H & E & _)|(t0 & s' & -> & H & E & _)]]]; [by eapply IH1|by apply IH2| |by destruct (cancel_cases _ _ _ _ E) as (_ & E1 & _); rewrite Es in E1].
      rewrite Es in E. unfold task_step in E. exfalso. destruct (t_st t0); repeat case_match; done.
    + intros Hn. apply no_await_snoc; [|by intros t' r' Ht'; rewrite Hn in Ht']. destruct (tk y !! i) as [t|] eqn:E; [|by apply IH2]. destruct (HL t eq_refl) as [t' Ht']. by rewrite Ey, Ht' in Hn.
    + intros (l1 & v & l2 & t & E & Hv & Ht & Es). change (STask i v :: l2) with ([STask i v] ++ l2) in E. rewrite app_assoc in E. symmetry in E.
      destruct (snoc_split l x (l1 ++ [STask i v]) l2 (eq_sym E)) as [[-> E1]|(l3 & -> & E1)].
      * apply app_inj_tail in E1 as [-> <-]. fold y in Ht. assert (tk (sys_step y (STask i v)) !! i = Some (TK (t_mb t) TDrop)) as Ht'.
        { cbn [sys_step]. rewrite Ht. unfold task_step. rewrite Es. destruct v; [done|]. cbn [tk]. by rewrite list_lookup_insert by (by eapply lookup_lt_Some). }
        rewrite <-Ey in Ht'. split; [|eexists; split; [done|by left]]. apply no_await_snoc; [by eapply IH1|]. intros t' r'. rewrite Ht'. by intros [= <-].
      * destruct IH3 as [H1 (t1 & Ht1 & H2)]; [exists l1, v, l3, t; rewrite E1, <-app_assoc; done|]. destruct (HL t1 Ht1) as [t' Ht'].
        assert (t_st t' = TDrop ∨ t_st t' = TDone) as HT.
        { destruct (tk_back y x i t' Ht') as [[H _]|[[H _]|[(t0 & v' & s' & -> & H & E2 & _)|(t0 & s' & -> & H & E2 & _)]]]; [rewrite Ht1 in H; by injection H as <-|by rewrite Ht1 in H| |by destruct (cancel_cases _ _ _ _ E2) as (_ & ? & _); left].
          rewrite Ht1 in H. injection H as <-. unfold task_step in E2. destruct H2 as [H2|H2]; rewrite H2 in E2; [|done]. injection E2 as _ <-. by right. }
        rewrite <-Ey in Ht'. split; [|by exists t']. apply no_await_snoc; [done|]. intros t2 r2. rewrite Ht'. intros [= <-]. by destruct HT as [-> | ->].
Qed.
Lemma start_error_stops c l i : start_failed c l i →
  (∀ l1 l2 r, l = l1 ++ l2 → ¬ awaits (sys_run (sys_init c) l1) i r ∧ ¬ in_stopped (sys_run (sys_init c) l1) i) ∧ leads (λ z, finished z i) (sys_run (sys_init c) l).
Proof.
  intros H. destruct (start_error c l i) as (_ & _ & H3). destruct (H3 H) as [H1 (t & Ht & Hs)]. split; [done|]. apply told_stops; [by exists c, l|].
  exists t. split; [done|]. unfold wst. by destruct Hs as [-> | ->].
Qed.

(** ** Dropped actors *)
Lemma dropping_stays y x i t : tk y !! i = Some t → t_st t = TDrop ∨ t_st t = TDone → ∃ t', tk (sys_step y x) !! i = Some t' ∧ (t_st t' = TDrop ∨ t_st t' = TDone).
Proof.
  intros Ht Hs. assert (∃ t', tk (sys_step y x) !! i = Some t') as [t' Ht'].
  { apply lookup_lt_is_Some_2. apply lookup_lt_Some in Ht. pose proof (tk_len y x). lia. }
  exists t'. split; [done|]. destruct (tk_back y x i t' Ht') as [[H _]|[[H _]|[(t0 & v' & s' & -> & H & E2 & _)|(t0 & s' & -> & H & E2 & _)]]]; rewrite Ht in H; [by injection H as <-|done| |].
  - injection H as <-. unfold task_step in E2. destruct Hs as [H2|H2]; rewrite H2 in E2; [|done]. injection E2 as _ <-. by right.
  - by destruct (cancel_cases _ _ _ _ E2) as (_ & ? & _); left.
Qed.
Lemma cancelled_drops c l i : cancelled c l i → ∃ t, tk (sys_run (sys_init c) l) !! i = Some t ∧ (t_st t = TDrop ∨ t_st t = TDone).
Proof.
  intros (l1 & l2 & -> & t & Ht & Ha). induction l2 as [|x l2 IH] using rev_ind.
  - rewrite sys_run_snoc. cbn [sys_step]. rewrite Ht. set (y := sys_run (sys_init c) l1) in *.
    assert (task_cancel t (ch y) = Some (ch y, TDrop) ∨ ∃ r, task_cancel t (ch y) = Some (step (ch y) (ADropHol r), TDrop)) as HC.
    { unfold task_cancel. destruct Ha as [-> |[-> |(r & h & -> & -> & [[o ->]|[a ->]])]]; eauto. }
    destruct HC as [-> |[r ->]]; cbn [tk]; rewrite list_lookup_insert by (by eapply lookup_lt_Some); eexists; (split; [done|by left]).
  - destruct IH as (t' & Ht' & Hs). rewrite app_comm_cons, app_assoc, sys_run_snoc. by eapply dropping_stays.
Qed.
Lemma cancelled_stops c l i : cancelled c l i → leads (λ z, finished z i) (sys_run (sys_init c) l).
Proof.
  intros H. destruct (cancelled_drops c l i H) as (t & Ht & Hs). apply told_stops; [by exists c, l|].
  exists t. split; [done|]. unfold wst. by destruct Hs as [-> | ->].
Qed.

(** ** Mailboxes of stopped actors *)
Lemma gone_stays s o r x : reach s → hols s !! r = Some x → h_st x = HGone → ∃ x', hols (step s o) !! r = Some x' ∧ h_st x' = HGone.
Proof.
  intros Hr Hx Hs. destruct (decide (touched o = Some r)) as [E|E].
  - exists x. split; [|done]. unfold step. rewrite collect_hols. destruct x as [b hs k w]. cbn in Hs. subst hs.
    destruct o; try done; cbn in E; injection E as ->; cbn [api]; rewrite Hx; done.
  - destruct (hol_keep s o r x Hr Hx E) as (x' & Hx' & [[H _]|(H & _)]); [|by rewrite Hs in H]. exists x'. by rewrite H.
Qed.
Lemma mailbox_dropped y i t : sys_reachable y → tk y !! i = Some t → ∃ x, hols (ch y) !! t_mb t = Some x ∧ h_st x = match t_st t with TDone => HGone | _ => HMailbox end.
Proof.
  intros Hy Ht. destruct (sys_reach y Hy) as [Hrr I]. assert (t_st t = TDone ∨ t_st t ≠ TDone) as [Hd|Hd] by (destruct (t_st t); auto).
  2: { destruct (tinv_mb _ _ (proj1 I _ _ Ht) Hd) as (x & Hx & Hs). exists x. split; [done|]. rewrite Hs. by destruct (t_st t). }
  rewrite Hd. clear I Hrr. destruct Hy as (c & l & ->). revert t Ht Hd. induction l as [|x l IH] using rev_ind; intros t Ht Hd; [done|].
  destruct (sys_reach (sys_run (sys_init c) l)) as [Hrr I]; [by exists c, l|]. rewrite sys_run_snoc in *. set (y := sys_run (sys_init c) l) in *. pose proof (reachable_reach _ Hrr) as Hr.
  destruct (tk_back y x i t Ht) as [[H _]|[[_ H]|[(t0 & v & s' & -> & H & E & Em)|(t0 & s' & -> & H & E & Em)]]].
  - destruct (IH t H Hd) as (h & Hh & Hs). destruct (ch_step y x) as [-> |[o ->]]; [by exists h|]. by eapply gone_stays.
  - by rewrite Hd in H.
  - rewrite Hd in E. cbn [sys_step]. rewrite H, E. cbn [ch].
    destruct (task_cases _ _ _ _ _ E) as [(_ & _ & _ & H1)|[(_ & _ & H1)|[(r & h & o & _ & _ & _ & _ & H1)|(Es & -> & _)]]]; [done..|].
    destruct (tinv_mb _ _ (proj1 I _ _ H) ltac:(by rewrite Es)) as (h & Hh & Hs). unfold step. rewrite collect_hols. cbn [api]. rewrite <-Em, Hh. destruct h as [b hs k w]. cbn in Hs. subst hs.
    cbn. rewrite list_lookup_insert by (by eapply lookup_lt_Some). by eexists.
  - destruct (cancel_cases _ _ _ _ E) as (_ & E1 & _). by rewrite Hd in E1.
Qed.
