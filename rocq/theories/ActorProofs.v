(** Proofs about the control loops. *)
From stdpp Require Import base numbers list.
From Coq Require Import Lia.
From Verif Require Import Actor ActorSpec.

Lemma taken_app p q : taken (p ++ q) = taken p ++ taken q.
Proof. induction p as [|x p IH]; [done|]. destruct x as [| |? []| | | |]; cbn; rewrite ?IH; done. Qed.
Lemma dispatched_app p q : dispatched (p ++ q) = dispatched p ++ dispatched q.
Proof. induction p as [|x p IH]; [done|]. destruct x as [| | | |? []| |]; cbn; rewrite ?IH; done. Qed.
Lemma all_legal_snoc L h x : all_legal L h → L h x → all_legal L (h ++ [x]).
Proof.
  intros H Hx h1 y h2 E. destruct h2 as [|z h2] using rev_ind.
  - apply app_inj_tail in E as [<- <-]. done.
  - clear IHh2. rewrite app_comm_cons, app_assoc in E. apply app_inj_tail in E as [-> _]. by eapply H.
Qed.
Lemma in_snoc (x y : aev) p : x ∈ p ++ [y] ↔ x ∈ p ∨ x = y.
Proof. rewrite elem_of_app, elem_of_list_singleton. done. Qed.
Lemma nexts_snoc h x : nexts (h ++ [x]) = nexts h + match x with NewNext _ => 1 | _ => 0 end.
Proof. unfold nexts. rewrite List.filter_app, app_length. destruct x; done. Qed.

(** ** run *)
Definition new_lt (h : list aev) : Prop := ∀ n, (NewNext n ∈ h ∨ DropNext n ∈ h ∨ ∃ m, PollNext n (Some m) ∈ h) → n < nexts h.
Definition RI (x : rstate * list aev) : Prop :=
  let '(st, h) := x in
  all_legal legal_run h ∧ new_lt h ∧
  match st with
  | RStart => ∀ y, y ∈ h → y = PollStarted None
  | RLoop => started h ∧ ¬ stop_asked h ∧ taken h = dispatched h
  | RWait n => started h ∧ ¬ stop_asked h ∧ taken h = dispatched h ∧ open_next n h
  | RDisp m => started h ∧ ¬ stop_asked h ∧ taken h = dispatched h ++ [m]
  | RStopping => stop_asked h ∧ ∀ v, PollStopped (Some v) ∉ h
  | RDone v => ∃ p, (h = p ++ [PollStarted (Some (Some v))] ∧ ∀ y, y ∈ p → y = PollStarted None) ∨ (h = p ++ [PollStopped (Some v)] ∧ stop_asked p)
  end.
Lemma new_lt_snoc h x : new_lt h → match x with NewNext n => n = nexts h | DropNext n => n < nexts h | PollNext n _ => n < nexts h | _ => True end → new_lt (h ++ [x]).
Proof.
  intros H Hx n. rewrite nexts_snoc. intros [[Hn| <-]%in_snoc|[[Hn| <-]%in_snoc|[m [Hn| <-]%in_snoc]]]; cbn in *; try (lia || (assert (n < nexts h) by (apply H; eauto); lia)).
Qed.
Lemma stop_snoc h x : stop_asked (h ++ [x]) ↔ stop_asked h ∨ ∃ m, x = PollDispatch m (Some false).
Proof. unfold stop_asked. setoid_rewrite in_snoc. naive_solver. Qed.
Lemma fut_snoc h x : fut_done (h ++ [x]) ↔ fut_done h ∨ ∃ r, x = PollFut (Some r).
Proof. unfold fut_done. setoid_rewrite in_snoc. naive_solver. Qed.
Lemma open_lt n h : new_lt h → open_next n h → n < nexts h.
Proof. intros H (Hn & _). apply H. by left. Qed.
Lemma open_new h : new_lt h → open_next (nexts h) (h ++ [NewNext (nexts h)]).
Proof.
  intros H. split; [apply in_snoc; by right|]. split; [intros m [Hm|[=]]%in_snoc|intros [Hm|[=]]%in_snoc]; assert (nexts h < nexts h) by (apply H; eauto); lia.
Qed.
Lemma open_snoc n h x : open_next n h → match x with PollNext _ (Some _) | DropNext _ => False | _ => True end → open_next n (h ++ [x]).
Proof.
  intros (H1 & H2 & H3) Hx. split; [apply in_snoc; by left|]. split; [intros m [Hm| <-]%in_snoc|intros [Hm| <-]%in_snoc]; try done; by eapply H2.
Qed.
Ltac snoc := repeat (rewrite in_snoc || rewrite stop_snoc || rewrite fut_snoc || rewrite taken_app || rewrite dispatched_app); cbn [taken dispatched]; rewrite ?app_nil_r.
Lemma RI_step e x : RI x → RI (rstep e x).
Proof.
  destruct x as [st h]. intros (HL & HN & HS). destruct st; cbn [rstep].
  - assert (all_legal legal_run (h ++ [PollStarted (e_started e h)])) as HL' by (apply all_legal_snoc; [done|exact HS]).
    split; [done|]. split; [by apply new_lt_snoc|]. destruct (e_started e h) as [[v|]|].
    + exists h. by left.
    + split; [apply in_snoc; by right|]. split.
      * intros [m [Hm|[=]]%in_snoc]. by apply HS in Hm.
      * snoc. clear -HS. induction h as [|y h IH]; [done|]. rewrite (HS y) by (by left). cbn. apply IH. intros z Hz. apply HS. by right.
    + intros y [Hy| ->]%in_snoc; auto.
  - destruct HS as (S1 & S2 & S3). split; [apply all_legal_snoc; [done|]|split; [by apply new_lt_snoc|]].
    + split_and!; try done. intros Hn. assert (nexts h < nexts h) by (apply HN; eauto). lia.
    + split; [apply in_snoc; by left|]. split; [snoc; naive_solver|]. split; [by snoc|]. by apply open_new.
  - destruct HS as (S1 & S2 & S3 & S4). split; [apply all_legal_snoc; [done|by split_and!]|split; [apply new_lt_snoc; [done|by apply open_lt]|]].
    destruct (e_next e h) as [m|].
    + split; [apply in_snoc; by left|]. split; [snoc; naive_solver|]. snoc. by rewrite S3.
    + split; [apply in_snoc; by left|]. split; [snoc; naive_solver|]. split; [by snoc|]. by apply open_snoc.
  - destruct HS as (S1 & S2 & S3). split; [apply all_legal_snoc; [done|by split_and!]|split; [by apply new_lt_snoc|]].
    destruct (e_dispatch e h) as [[]|].
    + split; [apply in_snoc; by left|]. split; [snoc; naive_solver|]. by snoc.
    + split; [snoc; naive_solver|]. intros v [Hv|[=]]%in_snoc. clear -HL Hv S2. apply elem_of_list_split in Hv as (h1 & h2 & ->). destruct (HL h1 (PollStopped (Some v)) h2 eq_refl) as [Hs _]. destruct S2. destruct Hs as [m' Hm]. exists m'. apply elem_of_app. by left.
    + split; [apply in_snoc; by left|]. split; [snoc; naive_solver|]. snoc. by rewrite S3.
  - destruct HS as (S1 & S2). split; [apply all_legal_snoc; [done|by split]|split; [by apply new_lt_snoc|]].
    destruct (e_stopped e h) as [v|].
    + exists h. by right.
    + split; [snoc; by left|]. intros v [Hv|[=]]%in_snoc. by eapply S2.
  - by split_and!.
Qed.
Lemma run_RI n e : RI (run_for n e).
Proof.
  unfold run_for. induction n as [|n IH]; cbn [iter]; [|by apply RI_step].
  split; [|split]; [intros h1 x h2 E; by destruct h1| |by intros y ?%elem_of_nil]. intros n [H|[H|[m H]]]; by apply elem_of_nil in H.
Qed.
Lemma run_legal n e : all_legal legal_run (snd (run_for n e)).
Proof. pose proof (run_RI n e) as H. destruct (run_for n e) as [st h]. by destruct H. Qed.
Lemma run_result n e v : fst (run_for n e) = RDone v ↔
  last (snd (run_for n e)) = Some (PollStarted (Some (Some v))) ∨ last (snd (run_for n e)) = Some (PollStopped (Some v)).
Proof.
  pose proof (run_RI n e) as H. destruct (run_for n e) as [st h]. cbn. destruct H as (HL & HN & HS). split.
  - intros ->. destruct HS as (p & [[-> _]|[-> _]]); rewrite last_snoc; eauto.
  - intros HE.
    assert (∃ p x, h = p ++ [x] ∧ (x = PollStarted (Some (Some v)) ∨ x = PollStopped (Some v))) as (p & x & -> & Hx).
    { destruct h as [|x p _] using rev_ind; [by destruct HE|]. rewrite last_snoc in HE. exists p, x. split; [done|]. destruct HE as [[= ->]|[= ->]]; eauto. }
    assert (legal_run p x) as Hl by (by eapply HL). assert (x ∈ p ++ [x]) as Hi by (apply in_snoc; by right).
    assert (started (p ++ [x]) → x = PollStarted (Some (Some v)) → False) as HA.
    { intros [Hs| <-]%in_snoc Hy; [|done]. subst x. apply Hl in Hs. done. }
    assert (¬ stop_asked (p ++ [x]) → x = PollStopped (Some v) → False) as HB.
    { intros Hs Hy. subst x. destruct Hl as [Hl _]. apply Hs, stop_snoc. by left. }
    destruct st; try (destruct HS as (S1 & S2 & S3); exfalso; destruct Hx; by eauto).
    + exfalso. apply HS in Hi. destruct Hx; congruence.
    + destruct HS as [S1 S2]. exfalso. destruct Hx as [-> | ->]; [|by eapply S2]. destruct S1 as [m [Hm|[=]]%in_snoc]. apply Hl in Hm. done.
    + destruct HS as (q & [[E _]|[E _]]); apply app_inj_tail in E as [_ ->]; destruct Hx; congruence.
Qed.
Lemma run_progress n e : (∃ v, fst (run_for n e) = RDone v ∧ run_for (S n) e = run_for n e) ∨ (∃ x, snd (run_for (S n) e) = snd (run_for n e) ++ [x]).
Proof. change (run_for (S n) e) with (rstep e (run_for n e)). destruct (run_for n e) as [st h]. destruct st; cbn; eauto. Qed.
Lemma run_failed n e v : PollStarted (Some (Some v)) ∈ snd (run_for n e) → fst (run_for n e) = RDone v ∧ last (snd (run_for n e)) = Some (PollStarted (Some (Some v))).
Proof.
  intros H. assert (last (snd (run_for n e)) = Some (PollStarted (Some (Some v)))) as HL; [|split; [apply run_result; by left|done]].
  apply elem_of_list_split in H as (h1 & h2 & E). pose proof (run_legal n e) as HL. rewrite E in HL |- *.
  assert (∀ y, y ∈ h1 → y = PollStarted None) as H1 by exact (HL h1 (PollStarted (Some (Some v))) h2 eq_refl).
  destruct h2 as [|z h2]; [by rewrite last_snoc|]. exfalso.
  assert (¬ started (h1 ++ [PollStarted (Some (Some v))])) as Hs by (intros [Hm%H1|[=]]%in_snoc; done).
  assert (¬ stop_asked (h1 ++ [PollStarted (Some (Some v))])) as Ht by (intros [m [Hm%H1|[=]]%in_snoc]; done).
  specialize (HL (h1 ++ [PollStarted (Some (Some v))]) z h2). rewrite <- app_assoc in HL. specialize (HL eq_refl).
  destruct z; cbn in HL; try (by destruct HL). specialize (HL (PollStarted (Some (Some v)))). rewrite in_snoc in HL. by discriminate (HL (or_intror eq_refl)).
Qed.

(** ** select and join *)
Definition SI (x : sstate * list aev) : Prop :=
  let '(st, h) := x in
  all_legal legal_join h ∧ new_lt h ∧
  match st with
  | SLoop => ¬ fut_done h ∧ ¬ stop_asked h ∧ taken h = dispatched h
  | SFut n => ¬ fut_done h ∧ ¬ stop_asked h ∧ taken h = dispatched h ∧ open_next n h
  | SNext n => ¬ fut_done h ∧ ¬ stop_asked h ∧ taken h = dispatched h ∧ open_next n h ∧ ∃ p, h = p ++ [PollFut None]
  | SLast n v => ¬ stop_asked h ∧ taken h = dispatched h ∧ open_next n h ∧ ∃ p, h = p ++ [PollFut (Some v)] ∧ ¬ fut_done p
  | SDropN n v => ¬ stop_asked h ∧ taken h = dispatched h ∧ open_next n h ∧ ∃ p, h = p ++ [PollFut (Some v); PollNext n None] ∧ ¬ fut_done p
  | SLastDisp m v => ¬ stop_asked h ∧ taken h = dispatched h ++ [m] ∧ PollFut (Some v) ∈ h ∧ (∀ w, PollFut (Some w) ∈ h → w = v)
  | SDisp m => ¬ fut_done h ∧ ¬ stop_asked h ∧ taken h = dispatched h ++ [m]
  | SLeft v => taken h = dispatched h ∧ PollFut (Some v) ∈ h ∧ (∀ w, PollFut (Some w) ∈ h → w = v)
  | SRight => ¬ fut_done h ∧ taken h = dispatched h ∧ ∃ p m, h = p ++ [PollDispatch m (Some false)] ∧ ¬ stop_asked p
  end.
Lemma SI_step e x : SI x → SI (sstep e x).
Proof.
  destruct x as [st h]. intros (HL & HN & HS). destruct st; cbn [sstep].
  - destruct HS as (S1 & S2 & S3). split; [apply all_legal_snoc; [done|]|split; [by apply new_lt_snoc|]].
    + split_and!; try done. intros Hn. assert (nexts h < nexts h) by (apply HN; eauto). lia.
    + split; [snoc; naive_solver|]. split; [snoc; naive_solver|]. split; [by snoc|]. by apply open_new.
  - destruct HS as (S1 & S2 & S3 & S4). split; [apply all_legal_snoc; [done|by split]|split; [by apply new_lt_snoc|]].
    destruct (e_fut e h) as [v|].
    + split; [snoc; naive_solver|]. split; [by snoc|]. split; [by apply open_snoc|]. by exists h.
    + split; [snoc; naive_solver|]. split; [snoc; naive_solver|]. split; [by snoc|]. split; [by apply open_snoc|]. by exists h.
  - destruct HS as (S1 & S2 & S3 & S4 & p & S5). split; [apply all_legal_snoc; [done|]|split; [apply new_lt_snoc; [done|by apply open_lt]|]].
    + split_and!; try done. exists p, None. split; [done|]. subst h. rewrite fut_snoc in S1. naive_solver.
    + destruct (e_next e h) as [m|].
      * split; [snoc; naive_solver|]. split; [snoc; naive_solver|]. snoc. by rewrite S3.
      * split; [snoc; naive_solver|]. split; [snoc; naive_solver|]. split; [by snoc|]. by apply open_snoc.
  - destruct HS as (S2 & S3 & S4 & p & S5 & S6). split; [apply all_legal_snoc; [done|]|split; [apply new_lt_snoc; [done|by apply open_lt]|]].
    + split_and!; try done. by eexists p, _.
    + destruct (e_next e h) as [m|].
      * split; [snoc; naive_solver|]. split; [snoc; by rewrite S3|]. subst h. split; [rewrite !in_snoc; naive_solver|]. intros w [[Hw|Hw]%in_snoc|Hw]%in_snoc; [destruct S6; by exists w|congruence|done].
      * split; [snoc; naive_solver|]. split; [by snoc|]. split; [by apply open_snoc|]. exists p. subst h. rewrite <- app_assoc. done.
  - destruct HS as (S2 & S3 & S5 & S6). split; [apply all_legal_snoc; [done|by split_and!]|split; [by apply new_lt_snoc|]].
    destruct (e_dispatch e h) as [b|].
    + split; [snoc; by rewrite S3|]. split; [apply in_snoc; by left|]. intros w [Hw|[=]]%in_snoc. by apply S6.
    + split; [snoc; naive_solver|]. split; [by snoc|]. split; [apply in_snoc; by left|]. intros w [Hw|[=]]%in_snoc. by apply S6.
  - destruct HS as (S2 & S3 & S4 & p & S5 & S6). split; [apply all_legal_snoc; [done|]|split; [apply new_lt_snoc; [done|by apply open_lt]|]].
    + split; [done|]. by eexists p, _.
    + split; [by snoc|]. subst h. split; [apply in_snoc; left; apply elem_of_app; right; by left|].
      intros w [Hw|[=]]%in_snoc. apply elem_of_app in Hw as [Hw|Hw]; [destruct S6; by exists w|]. apply elem_of_cons in Hw as [Hw|Hw]; [congruence|]. apply elem_of_list_singleton in Hw. done.
  - destruct HS as (S1 & S2 & S3). split; [apply all_legal_snoc; [done|by split_and!]|split; [by apply new_lt_snoc|]].
    destruct (e_dispatch e h) as [[]|].
    + split; [snoc; naive_solver|]. split; [snoc; naive_solver|]. snoc. done.
    + split; [snoc; naive_solver|]. split; [by snoc|]. by eexists h, _.
    + split; [snoc; naive_solver|]. split; [snoc; naive_solver|]. snoc. done.
  - exact (conj HL (conj HN HS)).
  - exact (conj HL (conj HN HS)).
Qed.
Lemma SI_init : SI (SLoop, []).
Proof.
  split; [intros h1 x h2 E; by destruct h1|]. split; [intros n [H|[H|[m H]]]; by apply elem_of_nil in H|].
  split; [intros [v H]; by apply elem_of_nil in H|]. split; [intros [v H]; by apply elem_of_nil in H|done].
Qed.
Lemma select_SI n e : SI (select_for n e).
Proof. unfold select_for. induction n as [|n IH]; cbn [iter]; [apply SI_init|by apply SI_step]. Qed.
Lemma SI_legal x : SI x → all_legal legal_join (snd x).
Proof. destruct x as [st h]. by intros []. Qed.
Lemma select_legal n e : all_legal legal_join (snd (select_for n e)).
Proof. apply SI_legal, select_SI. Qed.
Lemma select_left n e v : fst (select_for n e) = SLeft v →
  PollFut (Some v) ∈ snd (select_for n e) ∧ taken (snd (select_for n e)) = dispatched (snd (select_for n e)).
Proof. pose proof (select_SI n e) as H. destruct (select_for n e) as [st h]. cbn. intros ->. destruct H as (_ & _ & H1 & H2 & _). done. Qed.
Lemma select_right n e : fst (select_for n e) = SRight →
  ¬ fut_done (snd (select_for n e)) ∧ taken (snd (select_for n e)) = dispatched (snd (select_for n e)) ∧ ∃ m, last (snd (select_for n e)) = Some (PollDispatch m (Some false)).
Proof.
  pose proof (select_SI n e) as H. destruct (select_for n e) as [st h]. cbn. intros ->. destruct H as (_ & _ & H1 & H2 & p & m & -> & _).
  split_and!; [done..|]. exists m. by rewrite last_snoc.
Qed.
Lemma select_stop n e : stop_asked (snd (select_for n e)) → ¬ fut_done (snd (select_for n e)) → fst (select_for n e) = SRight.
Proof.
  pose proof (select_SI n e) as H. destruct (select_for n e) as [st h]. cbn. intros Hs Hf. destruct H as (_ & _ & H).
  destruct st; try done; try (by destruct H as (? & ? & ?)); exfalso.
  destruct H as (? & ? & ?). destruct Hf. by exists r.
Qed.
Lemma select_progress n e : (∃ v, fst (select_for n e) = SLeft v) ∨ fst (select_for n e) = SRight ∨ ∃ x, snd (select_for (S n) e) = snd (select_for n e) ++ [x].
Proof. change (select_for (S n) e) with (sstep e (select_for n e)). destruct (select_for n e) as [st h]. destruct st; cbn; eauto. Qed.

Definition JI (x : jstate * list aev) : Prop :=
  let '(st, h) := x in
  match st with
  | JSel st => SI (st, h)
  | JFut => all_legal legal_join h ∧ ¬ fut_done h ∧ taken h = dispatched h ∧ stop_asked h
  | JDone v => all_legal legal_join h ∧ taken h = dispatched h ∧ PollFut (Some v) ∈ h
  end.
Lemma JI_step e x : JI x → JI (jstep e x).
Proof.
  destruct x as [st h]. destruct st as [st| |v]; cbn [jstep].
  - intros H. assert (JI (let '(st', h') := sstep e (st, h) in (JSel st', h'))) as HI.
    { pose proof (SI_step e (st, h) H) as H'. by destruct (sstep e (st, h)). }
    destruct st; try exact HI.
    + destruct H as (H0 & H1 & H2 & H3 & H4). done.
    + destruct H as (H0 & H1 & H2 & H3 & p & m & -> & _). split_and!; [done..|]. exists m. apply in_snoc. by right.
  - intros (H1 & H2 & H3 & H4). assert (all_legal legal_join (h ++ [PollFut (e_fut e h)])) by (apply all_legal_snoc; done).
    destruct (e_fut e h) as [v|].
    + split; [done|]. split; [by snoc|]. apply in_snoc. by right.
    + split; [done|]. split; [snoc; naive_solver|]. split; [by snoc|]. snoc. by left.
  - done.
Qed.
Lemma join_JI n e : JI (join_for n e).
Proof. unfold join_for. induction n as [|n IH]; cbn [iter]; [apply SI_init|by apply JI_step]. Qed.
Lemma join_legal n e : all_legal legal_join (snd (join_for n e)).
Proof. pose proof (join_JI n e) as H. destruct (join_for n e) as [[st| |v] h]; [exact (SI_legal (st, h) H)|by destruct H..]. Qed.
Lemma join_result n e v : fst (join_for n e) = JDone v →
  PollFut (Some v) ∈ snd (join_for n e) ∧ taken (snd (join_for n e)) = dispatched (snd (join_for n e)).
Proof. pose proof (join_JI n e) as H. destruct (join_for n e) as [st h]. cbn. intros ->. by destruct H as (? & ? & ?). Qed.
(** at any time at most the message being dispatched is not yet dispatched *)
Lemma SI_pending st h : SI (st, h) → taken h = dispatched h ∨ ∃ m, taken h = dispatched h ++ [m].
Proof. intros (_ & _ & H). destruct st; naive_solver. Qed.
Lemma select_pending n e : taken (snd (select_for n e)) = dispatched (snd (select_for n e)) ∨ ∃ m, taken (snd (select_for n e)) = dispatched (snd (select_for n e)) ++ [m].
Proof. pose proof (select_SI n e) as H. destruct (select_for n e) as [st h]. by apply SI_pending in H. Qed.
Lemma join_pending n e : taken (snd (join_for n e)) = dispatched (snd (join_for n e)) ∨ ∃ m, taken (snd (join_for n e)) = dispatched (snd (join_for n e)) ++ [m].
Proof. pose proof (join_JI n e) as H. destruct (join_for n e) as [[st| |v] h]; [exact (SI_pending st h H)|left; by destruct H as (? & ? & ? & ?)|left; by destruct H as (? & ? & ?)]. Qed.

(** ** join completes *)
Lemma iter_comm {A} n (f : A → A) x : iter n f (f x) = f (iter n f x).
Proof. induction n as [|n IH]; cbn; [done|by rewrite IH]. Qed.
Definition JR e x := ∃ n r, fst (iter n (jstep e) x) = JDone r.
Lemma JR_step e x : JR e (jstep e x) → JR e x.
Proof. intros (n & r & H). exists (S n), r. cbn. by rewrite <- iter_comm. Qed.
Lemma fut_polls_snoc h x : fut_polls (h ++ [x]) = fut_polls h + match x with PollFut _ => 1 | _ => 0 end.
Proof. unfold fut_polls. rewrite List.filter_app, app_length. destruct x; done. Qed.
Lemma disp_done e j : ∀ h m, e_dispatch e (h ++ replicate j (PollDispatch m None)) ≠ None →
  (∀ h', fut_polls h' = fut_polls h → JR e (JSel SLoop, h')) → (∀ h', fut_polls h' = fut_polls h → JR e (JSel SRight, h')) → JR e (JSel (SDisp m), h).
Proof.
  induction j as [|j IH]; intros h m H1 H2 H3; apply JR_step; cbn [jstep sstep].
  - cbn in H1. rewrite app_nil_r in H1. destruct (e_dispatch e h) as [[]|]; [apply H2|apply H3|done]; rewrite fut_polls_snoc; lia.
  - destruct (e_dispatch e h) as [[]|] eqn:E; [apply H2; rewrite fut_polls_snoc; lia|apply H3; rewrite fut_polls_snoc; lia|].
    apply IH; [by rewrite <- app_assoc|..]; intros h'; rewrite fut_polls_snoc, Nat.add_0_r; auto.
Qed.
Lemma last_disp_done e j : ∀ h m v, e_dispatch e (h ++ replicate j (PollDispatch m None)) ≠ None → JR e (JSel (SLastDisp m v), h).
Proof.
  induction j as [|j IH]; intros h m v H1; apply JR_step; cbn [jstep sstep].
  - cbn in H1. rewrite app_nil_r in H1. destruct (e_dispatch e h) as [b|]; [|done]. by exists 1, v.
  - destruct (e_dispatch e h) as [b|] eqn:E; [by exists 1, v|]. apply IH. by rewrite <- app_assoc.
Qed.
Lemma join_done e k :
  (∀ h, k ≤ fut_polls h → e_fut e h ≠ None) →
  (∀ h m, ∃ j, e_dispatch e (h ++ replicate j (PollDispatch m None)) ≠ None) →
  ∃ n r, fst (join_for n e) = JDone r.
Proof.
  intros Hf Hd.
  assert (∀ d h, k - fut_polls h ≤ d → JR e (JFut, h)) as HF.
  { induction d as [|d IH]; intros h H; apply JR_step; cbn [jstep].
    - destruct (e_fut e h) as [v|] eqn:E; [by exists 0, v|]. apply Hf in E; [done|lia].
    - destruct (e_fut e h) as [v|] eqn:E; [by exists 0, v|]. apply IH. rewrite fut_polls_snoc. lia. }
  assert (∀ h, JR e (JSel SRight, h)) as HR by (intros h; apply JR_step; cbn; by eapply HF).
  assert (∀ n v h, JR e (JSel (SLast n v), h)) as HL.
  { intros n v h. apply JR_step. cbn. destruct (e_next e h) as [m|]; [|by exists 2, v]. destruct (Hd (h ++ [PollNext n (Some m)]) m) as [j Hj]. by eapply last_disp_done. }
  assert (∀ d n h, k - fut_polls h ≤ d → JR e (JSel (SFut n), h)) as HS.
  { induction d as [|d IH]; intros n h H; apply JR_step; cbn [jstep sstep].
    - destruct (e_fut e h) as [v|] eqn:E; [apply HL|]. apply Hf in E; [done|lia].
    - destruct (e_fut e h) as [v|] eqn:E; [apply HL|]. apply JR_step. cbn [jstep sstep].
      destruct (e_next e _) as [m|]; [|apply IH; rewrite !fut_polls_snoc; lia].
      destruct (Hd ((h ++ [PollFut None]) ++ [PollNext n (Some m)]) m) as [j Hj]. eapply disp_done; [done| |by intros; apply HR].
      intros h' Hh. apply JR_step. cbn [jstep sstep]. apply IH. rewrite fut_polls_snoc, Hh, !fut_polls_snoc. lia. }
  unfold join_for. apply JR_step. cbn. by eapply HS.
Qed.


Lemma run_stop n e : stop_asked (snd (run_for n e)) →
  (∃ v, fst (run_for n e) = RDone v ∧ PollStopped (Some v) ∈ snd (run_for n e)) ∨ ∃ r, snd (run_for (S n) e) = snd (run_for n e) ++ [PollStopped r].
Proof.
  change (run_for (S n) e) with (rstep e (run_for n e)).
  pose proof (run_RI n e) as H. destruct (run_for n e) as [st h]. destruct H as (_ & _ & H). intros Hs. cbn in Hs.
  destruct st; try (by destruct H as (? & ? & ?)).
  - exfalso. destruct Hs as [m Hm]. by apply H in Hm.
  - right. cbn. eauto.
  - left. exists v. split; [done|]. destruct H as (p & [[-> Hp]|[-> Hp]]); cbn.
    + exfalso. destruct Hs as [m [Hm|[=]]%in_snoc]. by apply Hp in Hm.
    + apply in_snoc. by right.
Qed.
Lemma run_pending n e : taken (snd (run_for n e)) = dispatched (snd (run_for n e)) ∨ ∃ m, taken (snd (run_for n e)) = dispatched (snd (run_for n e)) ++ [m].
Proof.
  induction n as [|n IH]; [by left|]. change (run_for (S n) e) with (rstep e (run_for n e)). pose proof (run_RI n e) as H.
  destruct (run_for n e) as [st h]. destruct H as (_ & _ & H). cbn in IH. destruct st; cbn [rstep snd]; snoc; try done.
  - destruct H as (? & ? & -> & _). destruct (e_next e h); cbn; rewrite ?app_nil_r; eauto. 
  - destruct H as (? & ? & ->). destruct (e_dispatch e h); cbn; rewrite ?app_nil_r; eauto. 
Qed.
