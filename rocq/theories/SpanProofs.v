(** Spans follow messages. *)
From stdpp Require Import base numbers list list_numbers.
From Coq Require Import Lia.
From Verif Require Import Prio Heap State Model Lib InvMsg Spec Span SpanSpec SpanChan.

Lemma whoeqb_eq a b : whoeqb a b = true ↔ a = b.
Proof. destruct a, b; cbn; rewrite ?Nat.eqb_eq; (split; [intros; congruence|intros [= ->]; done]). Qed.
Lemma whoeqb_refl a : whoeqb a a = true.
Proof. by apply whoeqb_eq. Qed.
Definition i_key (w : who) (y : who * instr) : nat := if whoeqb w (fst y) then 1 else 0.
Definition keys (w : who) (x : spans) : nat := Σ (i_key w) (p_in x).
Lemma instr_none w l : Σ (i_key w) l = 0 → instr_of w l = IN None None.
Proof.
  unfold instr_of. induction l as [|[v i] l IH]; [done|]. cbn [sum_list_with List.find]. unfold i_key at 1. cbn [fst]. destruct (whoeqb w v); [lia|]. exact IH.
Qed.
Lemma instr_some w l : 0 < Σ (i_key w) l → (w, instr_of w l) ∈ l.
Proof.
  unfold instr_of. induction l as [|[v i] l IH]; cbn [sum_list_with List.find]; [lia|]. unfold i_key at 1. cbn [fst].
  destruct (whoeqb w v) eqn:E; [apply whoeqb_eq in E as ->; left|]. right. apply IH. lia.
Qed.

Section fix_init.
Context (on : bool) (k : option nat).
Notation x0 := (p_init on k).

Definition req_ok (x : spans) (l : list pop) (w : who) (i : instr) : Prop :=
  ∃ c, sent_under x0 l w c ∧
    if on then ∃ q g, i = IN (Some (Xtra q)) (Some (Xtra g)) ∧ is_span x q (NRequest w) c ∧ is_span x g (NWaiting w) (Some (Xtra q))
    else i = IN c c.
Definition hnd_ok (x : spans) (l : list pop) (r : nat) (w : who) (e : option sref) : Prop :=
  ∃ c d, sent_under x0 l w c ∧ ran_under x0 l r d ∧
    if on then ∃ q h, e = Some (Xtra h) ∧ is_span x h (NHandler w) (Some (Xtra q)) ∧ is_span x q (NRequest w) c
    else e = match c with Some _ => c | None => d end.
Record good (l : list pop) (x : spans) : Prop := GOOD {
  g_run : x = p_run x0 l;
  g_reach : reach (p_ch x);
  g_on : p_on x = on;
  g_len : length (p_ctx x) = length (thr (p_ch x));
  g_thr : ∀ t th v p w, thr (p_ch x) !! t = Some th → v ∈ th → sends v = Some p → who_p p = Some w →
            ∃ c, p_ctx x !! t = Some c ∧ sent_under x0 l w c;
  g_key : ∀ w, pre w (p_ch x) + keys w x ≤ born w (p_ch x) ∧ post w (p_ch x) ≤ keys w x;
  g_req : ∀ w i, (w, i) ∈ p_in x → req_ok x l w i;
  g_hnd : fst <$> p_ex x = handled (log (p_ch x));
  g_exs : ∀ r a e, (r, a, e) ∈ p_ex x → ∃ w, who_a a = Some w ∧ hnd_ok x l r w e;
  g_bad : p_bad x = false }.

Lemma p_run_snoc x l i : p_run x (l ++ [i]) = p_step (p_run x l) i.
Proof. unfold p_run. by rewrite fold_left_app. Qed.
Lemma sent_mono l i w c : sent_under x0 l w c → sent_under x0 (l ++ [i]) w c.
Proof. intros (l1 & l2 & f & sf & p & s & -> & H). exists l1, (l2 ++ [i]), f, sf, p, s. split; [by rewrite <-app_assoc|done]. Qed.
Lemma ran_mono l i r c : ran_under x0 l r c → ran_under x0 (l ++ [i]) r c.
Proof. intros (l1 & l2 & h & a & -> & H). exists l1, (l2 ++ [i]), h, a. split; [by rewrite <-app_assoc|done]. Qed.
Lemma span_mono x x' j i n p : p_sp x' = p_sp x ++ j → is_span x i n p → is_span x' i n p.
Proof. unfold is_span. intros -> H. by apply lookup_app_l_Some. Qed.
Lemma req_mono x x' j l i w y : p_sp x' = p_sp x ++ j → req_ok x l w y → req_ok x' (l ++ [i]) w y.
Proof.
  intros Hj (c & H1 & H2). exists c. split; [by apply sent_mono|]. destruct on; [|done].
  destruct H2 as (q & g & ? & ? & ?). exists q, g. eauto using span_mono.
Qed.
Lemma hnd_mono x x' j l i r w e : p_sp x' = p_sp x ++ j → hnd_ok x l r w e → hnd_ok x' (l ++ [i]) r w e.
Proof.
  intros Hj (c & d & H1 & H2 & H3). exists c, d. split_and!; [by apply sent_mono|by apply ran_mono|]. destruct on; [|done].
  destruct H3 as (q & g & ? & ? & ?). exists q, g. eauto using span_mono.
Qed.

(** What the instrumentation changes. *)
Lemma instrument_ch c o x : p_ch (instrument c o x) = p_ch x ∧ p_on (instrument c o x) = p_on x ∧ p_ctx (instrument c o x) = p_ctx x ∧
  ∃ j, p_sp (instrument c o x) = p_sp x ++ j.
Proof.
  assert (∀ y, y = x → p_ch y = p_ch x ∧ p_on y = p_on x ∧ p_ctx y = p_ctx x ∧ ∃ j, p_sp y = p_sp x ++ j) as H0.
  { intros y ->. split_and!; try done. exists []. by rewrite app_nil_r. }
  unfold instrument. destruct o; try (by apply H0); repeat (case_match; try (by apply H0)).
  - unfold start_span, new_span. destruct (p_on x) eqn:E; cbn; rewrite ?E; cbn; rewrite ?E; split_and!; try done; [eexists; rewrite <-app_assoc; done|exists []; by rewrite app_nil_r].
  - unfold apply_span, new_span. destruct (p_on x) eqn:E; cbn; rewrite ?E; split_and!; try done; [eexists; done|exists []; by rewrite app_nil_r].
Qed.
Lemma instrument_in l x c o : good l x →
  (p_in (instrument c o x) = p_in x ∧ p_bad (instrument c o x) = false ∧ ∀ w, dlk w (p_ch x) o = 0) ∨
  ∃ w i, p_in (instrument c o x) = (w, i) :: p_in x ∧ (∀ v, dlk v (p_ch x) o = i_key v (w, i)) ∧ req_ok (instrument c o x) l w i ∧
    p_bad (instrument c o x) = false.
Proof.
  intros G. destruct G as [Grun Gr Gon Glen Gt Gk Gq Gh Ge Gb].
  assert ((∃ t, o = Step t) ∨ ∀ t, o ≠ Step t) as [[t ->]|Hn] by (destruct o; eauto); [|left; destruct o; try (by split_and!); [by destruct (Hn t)|]].
  - cbn [instrument]. unfold dlk, locks. destruct (thr (p_ch x) !! t) as [[|u rest]|] eqn:Ht; try (left; by split_and!).
    destruct u; try (left; by split_and!).
    destruct (p_ctx x !! t) as [d|] eqn:Hd; [|apply lookup_ge_None in Hd; apply lookup_lt_Some in Ht; lia].
    unfold dw. destruct (who_p p) as [w|] eqn:Hw; [|left; by split_and!]. right.
    destruct (Gt t _ _ p w Ht (elem_of_list_here _ _) eq_refl Hw) as (d' & Hd' & HS). rewrite Hd in Hd'. injection Hd' as <-.
    assert (keys w x = 0) as K0.
    { destruct (Gk w) as [K1 _]. pose proof (born_le w (p_ch x)). pose proof (msum_head (g_w w) (p_ch x) t _ _ Ht) as HH. cbn [g_w] in HH.
      assert (1 ≤ cw w p) as Hc. { pose proof (dw_cw w p) as H'. unfold dw in H'. rewrite Hw, whoeqb_refl in H'. done. }
      unfold pre in K1. lia. }
    pose proof (instr_none w _ K0) as Hi.
    unfold start_span, new_span. rewrite Hi. destruct (p_on x) eqn:Eo; cbn; rewrite ?Eo; cbn.
    + eexists w, _. split_and!; [done|done| |by rewrite Gb]. exists d. split; [done|]. rewrite <-Gon. eexists _, _. split_and!; [done|..]; unfold is_span; cbn.
      * rewrite lookup_app_l by (rewrite app_length; cbn; lia). by rewrite lookup_app_r, Nat.sub_diag by lia.
      * by rewrite lookup_app_r, Nat.sub_diag by lia.
    + eexists w, _. split_and!; [done|done| |by rewrite Gb]. exists d. split; [done|]. by rewrite <-Gon.
  - cbn [instrument]. destruct (hols (p_ch x) !! r) as [[b [| | | | |a|a|] z y]|]; try done.
    destruct (who_a a) as [w|]; [|done]. unfold apply_span, new_span. destruct (p_on x); cbn; done.
Qed.
Lemma instrument_ex l x c o : good l x →
  (p_ex (instrument c o x) = p_ex x ∧ runs (p_ch x) o = None) ∨
  ∃ w r a e, p_ex (instrument c o x) = (r, a, e) :: p_ex x ∧ runs (p_ch x) o = Some (r, a) ∧ who_a a = Some w ∧
    hnd_ok (instrument c o x) (l ++ [PDo c o]) r w e.
Proof.
  intros G. destruct G as [Grun Gr Gon Glen Gt Gk Gq Gh Ge Gb].
  assert ((∃ r, o = ARun r) ∨ ∀ r, o ≠ ARun r) as [[r ->]|Hn] by (destruct o; eauto).
  - cbn [instrument runs]. destruct (hols (p_ch x) !! r) as [[b [| | | | |a|a|] z y]|] eqn:Hh; try (by left).
    destruct (who_a a) as [w|] eqn:Hw; [|by left]. right.
    assert (0 < keys w x) as HK.
    { destruct (Gk w) as [_ HK]. pose proof (disp_post _ _ _ _ _ Gr Hh eq_refl Hw). lia. }
    destruct (Gq _ _ (instr_some _ _ HK)) as (d & HS & HR).
    assert (ran_under x0 (l ++ [PDo c (ARun r)]) r c) as HC.
    { exists l, [], (HO b (HDispNew a) z y), a. split_and!; try done. by rewrite <-Grun. }
    unfold apply_span, new_span. destruct (p_on x) eqn:Eo; rewrite <-Gon in HR.
    + destruct HR as (q & g & -> & HQ & _). cbn. eexists w, r, a, _. split_and!; try done. exists d, c.
      split_and!; [by apply sent_mono|done|]. rewrite <-Gon. eexists q, _. split_and!; [done|..]; unfold is_span; cbn.
      * by rewrite lookup_app_r, Nat.sub_diag by lia.
      * by apply lookup_app_l_Some.
    + rewrite HR. cbn. eexists w, r, a, _. split_and!; try done. exists d, c. split_and!; [by apply sent_mono|done|]. rewrite <-Gon. by destruct d.
  - left. destruct o; try done; [|by destruct (Hn r)]. split; [|done].
    cbn [instrument]. repeat (case_match; try done). unfold start_span, new_span. destruct (p_on x) eqn:Eo; cbn; rewrite ?Eo; cbn; rewrite ?Eo; done.
Qed.

Lemma good_step l x i : good l x → good (l ++ [i]) (p_step x i).
Proof.
  intros G. destruct i as [c o]. pose proof (instrument_in l x c o G) as HI. pose proof (instrument_ex l x c o G) as HE.
  destruct (instrument_ch c o x) as (C1 & C2 & C3 & j & C4).
  pose proof G as [Grun Gr Gon Glen Gt Gk Gq Gh Ge Gb].
  assert (∀ w, keys w (p_step x (PDo c o)) = keys w x + dlk w (p_ch x) o) as HK.
  { intros w. unfold keys. cbn. destruct HI as [(-> & _ & ->)|(v & i & -> & -> & _)]; [lia|]. cbn [sum_list_with]. lia. }
  pose proof (step_thr_len (p_ch x) o) as HL.
  constructor.
  - rewrite p_run_snoc. by rewrite <-Grun.
  - cbn. rewrite C1. by apply reach_one.
  - cbn. by rewrite C2.
  - cbn. rewrite app_length, replicate_length, C1, C3. lia.
  - cbn. rewrite C1, C3. intros t th v p w Ht Hv Hp Hw.
    destruct (step_sends _ _ _ _ _ _ Ht Hv Hp) as [(th' & v' & H1 & H2 & H3)|(-> & f & sf & b & -> & H1 & H2 & H3)].
    + destruct (Gt _ _ _ _ _ H1 H2 H3 Hw) as (d & Hd & HS). exists d. split; [by apply lookup_app_l_Some|by apply sent_mono].
    + exists c. split.
      * rewrite lookup_app_r by lia. apply lookup_lt_Some in Ht. rewrite Glen, Nat.sub_diag. destruct (_ - _) as [|n] eqn:En; [lia|]. done.
      * exists l, [], f, sf, p, b. split_and!; try done. by rewrite <-Grun.
  - intros w. rewrite HK. cbn. rewrite C1. destruct (Gk w) as [K1 K2].
    pose proof (pre_step w (p_ch x) o Gr). pose proof (post_step w (p_ch x) o Gr).
    enough (dlk w (p_ch x) o ≤ lk w (p_ch x) o) by lia. unfold dlk, lk. case_match; [apply dw_cw|lia].
  - cbn. intros w i Hi. assert (req_ok (instrument c o x) (l ++ [PDo c o]) w i) as HR; [|exact HR].
    destruct HI as [(H1 & _)|(v & y & H1 & _ & H2 & _)]; rewrite H1 in Hi.
    + eapply req_mono; [exact C4|]. by apply Gq.
    + apply elem_of_cons in Hi as [[= -> ->]|Hi]; [|eapply req_mono; [exact C4|]; by apply Gq].
      eapply (req_mono _ _ []); [by rewrite app_nil_r|exact H2].
  - cbn. rewrite C1, step_handled. destruct HE as [(-> & ->)|(w & r & a & e & -> & -> & _)]; [done|]. cbn. by rewrite Gh.
  - cbn. intros r a e Hi. assert (∃ w, who_a a = Some w ∧ hnd_ok (instrument c o x) (l ++ [PDo c o]) r w e) as HR; [|exact HR].
    destruct HE as [(H1 & _)|(w & r' & a' & e' & H1 & _ & H2 & H3)]; rewrite H1 in Hi.
    + destruct (Ge _ _ _ Hi) as (w & Hw & HH). exists w. split; [done|]. eapply hnd_mono; [exact C4|done].
    + apply elem_of_cons in Hi as [[= -> -> ->]|Hi]; [by exists w|].
      destruct (Ge _ _ _ Hi) as (v & Hw & HH). exists v. split; [done|]. eapply hnd_mono; [exact C4|done].
  - cbn. destruct HI as [(_ & ? & _)|(? & ? & _ & _ & _ & ?)]; done.
Qed.
Lemma good_run l : good l (p_run x0 l).
Proof.
  induction l as [|i l IH] using rev_ind; [|rewrite p_run_snoc; by apply good_step].
  constructor; try done.
  - apply reach_init.
  - intros w. split; [destruct w; cbn; lia|destruct w; done].
  - intros w i H. by apply elem_of_nil in H.
  - intros r a e H. by apply elem_of_nil in H.
Qed.

Lemma first_unique l w c c' : sent_under x0 l w c → sent_under x0 l w c' → c = c'.
Proof.
  assert (∀ l1 w f sf p b, sfs (p_ch (p_run x0 l1)) !! f = Some sf → sf_live sf = true → sf_st sf = SNew p b → who_p p = Some w →
    ∀ c l2, fresh1 w (p_ch (p_run x0 (l1 ++ PDo c (APollSend f) :: l2))) = 0) as HZ.
  { clear l w c c'. intros l1 w f sf p b H1 H2 H3 H4 c l2. destruct (good_run l1) as [_ Gr _ _ _ Gk _ _ _ _]. destruct (Gk w) as [K1 _].
    pose proof (poll_first _ _ _ _ _ _ H1 H2 H3 H4) as HP. pose proof (born_le w (p_ch (p_run x0 l1))) as HB. unfold pre in K1. fold (fresh1 w (p_ch (p_run x0 l1))) in K1.
    enough (∀ l3, fresh1 w (p_ch (p_run x0 ((l1 ++ [PDo c (APollSend f)]) ++ l3))) = 0 ∧ born w (p_ch (p_run x0 ((l1 ++ [PDo c (APollSend f)]) ++ l3))) = 1) as HH.
    { destruct (HH l2) as [HH' _]. by rewrite <-app_assoc in HH'. }
    intros l3. induction l3 as [|[d o] l3 IH] using rev_ind.
    - rewrite app_nil_r, p_run_snoc. cbn.
      pose proof (born_step w (p_ch (p_run x0 l1)) (APollSend f)). pose proof (born_le w (step (p_ch (p_run x0 l1)) (APollSend f))). lia.
    - rewrite app_assoc, p_run_snoc. cbn. destruct (instrument_ch d o (p_run x0 ((l1 ++ [PDo c (APollSend f)]) ++ l3))) as (-> & _).
      destruct IH as [I1 I2]. set (s := p_ch (p_run x0 ((l1 ++ [PDo c (APollSend f)]) ++ l3))) in *. pose proof (fresh_step w s o). pose proof (born_le w (step s o)). pose proof (born_step w s o). lia. }
  assert (∀ w s f sf p b, sfs s !! f = Some sf → sf_st sf = SNew p b → who_p p = Some w → fresh1 w s ≠ 0) as HN.
  { clear. intros w s f sf p b H1 H2 H3. unfold fresh1. pose proof (sum_lookup (f_w w) _ _ _ H1) as H. unfold f_w in H at 1. rewrite H2 in H.
    pose proof (dw_cw w p) as HD. unfold dw in HD. rewrite H3, whoeqb_refl in HD. lia. }
  intros (l1 & l2 & f & sf & p & b & -> & H1 & H2 & H3 & H4) (l1' & l2' & f' & sf' & p' & b' & HE & H1' & H2' & H3' & H4').
  destruct (app_eq_inv _ _ _ _ HE) as [(m & -> & Hm)|(m & -> & Hm)].
  - destruct m as [|i m]; [by injection Hm as -> _ _|]. injection Hm as <- ->. destruct (HN _ _ _ _ _ _ H1 H3 H4). by eapply HZ.
  - destruct m as [|i m]; [by injection Hm as -> _ _|]. injection Hm as <- ->. destruct (HN _ _ _ _ _ _ H1' H3' H4'). by eapply HZ.
Qed.
End fix_init.

(** Counting spans. *)
Definition nm (n : sname) (s : span) : nat :=
  match sp_name s, n with NRequest a, NRequest b | NWaiting a, NWaiting b | NHandler a, NHandler b => if whoeqb b a then 1 else 0 | _, _ => 0 end.
Lemma named_sum x n : named x n = Σ (nm n) (p_sp x).
Proof.
  unfold named. induction (p_sp x) as [|[y p] l IH]; [done|]. cbn [List.filter sum_list_with sp_name]. rewrite <-IH. unfold nm; cbn [sp_name].
  destruct y, n; try done; by case_match.
Qed.
Definition e_who (w : who) (y : nat * amsg * option sref) : nat := match who_a (snd (fst y)) with Some v => if whoeqb w v then 1 else 0 | None => 0 end.
Record counted (x : spans) : Prop := {
  c_off : p_on x = false → p_sp x = [];
  c_on : p_on x = true → ∀ w, Σ (nm (NRequest w)) (p_sp x) = keys w x ∧ Σ (nm (NWaiting w)) (p_sp x) = keys w x ∧ Σ (nm (NHandler w)) (p_sp x) = Σ (e_who w) (p_ex x);
  c_ex : p_on x = true → NoDup (snd <$> p_ex x) ∧ ∀ e, e ∈ snd <$> p_ex x → ∃ h, e = Some (Xtra h) ∧ h < length (p_sp x) }.
Lemma i_key_one v w i : i_key v (w, i) = if whoeqb v w then 1 else 0.
Proof. done. Qed.
Lemma e_who_one v r a e w : who_a a = Some w → e_who v (r, a, e) = if whoeqb v w then 1 else 0.
Proof. unfold e_who. cbn. by intros ->. Qed.
Lemma counted_instr c o x : counted x → counted (instrument c o x).
Proof.
  intros C. unfold instrument. destruct o; try done; repeat (case_match; try done).
  - destruct C as [C1 C2 C3]. unfold start_span, new_span. destruct (p_on x) eqn:E; cbn; rewrite ?E; cbn; [|constructor; cbn; rewrite ?E; intros; [by apply C1|done..]].
    constructor; cbn; [done|..]; intros _.
    + intros v. destruct (C2 eq_refl v) as (H2' & H3' & H4'). rewrite !sum_list_with_app, H2', H3', H4'. unfold keys. cbn [sum_list_with p_in nm sp_name]. rewrite !i_key_one. lia.
    + destruct (C3 eq_refl) as [D1 D2]. split; [done|]. intros e (h & -> & Hh)%D2. exists h. rewrite !app_length. split; [done|lia].
  - destruct C as [C1 C2 C3]. unfold apply_span, new_span. destruct (p_on x) eqn:E; cbn; rewrite ?E; cbn; [|constructor; cbn; rewrite ?E; intros; [by apply C1|done..]].
    constructor; cbn; [done|..]; intros _.
    + intros v. destruct (C2 eq_refl v) as (H2' & H3' & H4'). rewrite !sum_list_with_app, H2', H3', H4'. unfold keys. cbn [sum_list_with p_in nm sp_name]. erewrite e_who_one by eassumption. lia.
    + destruct (C3 eq_refl) as [D1 D2]. split.
      * constructor; [|done]. intros (h' & [= <-] & Hh)%D2. lia.
      * intros e [->|(h' & -> & Hh)%D2]%elem_of_cons; rewrite app_length; cbn; eexists; (split; [done|lia]).
Qed.
Lemma counted_run on k l : counted (p_run (p_init on k) l).
Proof.
  induction l as [|[c o] l IH] using rev_ind.
  - constructor; [done|..]; cbn; intros _; [by intros w|]. split; [constructor|]. by intros e ?%elem_of_nil.
  - rewrite p_run_snoc. destruct (counted_instr c o _ IH) as [C1 C2 C3]. by constructor.
Qed.

Lemma spans_assert on k l : p_bad (p_run (p_init on k) l) = false.
Proof. apply good_run. Qed.
Lemma spans_request on k l w : let x := p_run (p_init on k) l in accepted w (p_ch x) →
  ∃ c, sent_under (p_init on k) l w c ∧
    (on = true → ∃ q g, is_span x q (NRequest w) c ∧ is_span x g (NWaiting w) (Some (Xtra q))).
Proof.
  intros x Ha. destruct (good_run on k l) as [_ Gr _ _ _ Gk Gq _ _ _]. fold x in Gr, Gk, Gq.
  assert (0 < post w (p_ch x)) as HP.
  { destruct w as [m|b]; cbn in Ha |- *.
    - pose proof (sum_elem (e_acc m) _ _ Ha) as H. cbn in H. unfold isn in H. rewrite Nat.eqb_refl in H. lia.
    - destruct Ha as (n & qs & Ha). pose proof (sum_elem (InvBprio.e_b (ib b)) _ _ Ha) as H. cbn in H. unfold isn in H. rewrite Nat.eqb_refl in H. lia. }
  destruct (Gk w) as [_ HK]. destruct (Gq _ _ (instr_some w _ (Nat.lt_le_trans _ _ _ HP HK))) as (c & HS & HR). exists c. split; [done|].
  intros ->. destruct HR as (q & g & _ & ? & ?). eauto.
Qed.
Lemma spans_handler on k l r a : let x := p_run (p_init on k) l in happened (EvHandle r a) (p_ch x) →
  ∃ w e c d, who_a a = Some w ∧ runs_in x r a e ∧ sent_under (p_init on k) l w c ∧ ran_under (p_init on k) l r d ∧
    if on then ∃ h q, e = Some (Xtra h) ∧ is_span x h (NHandler w) (Some (Xtra q)) ∧ is_span x q (NRequest w) c
    else e = match c with Some _ => c | None => d end.
Proof.
  intros x Hh. destruct (good_run on k l) as [_ _ _ _ _ _ _ Gh Ge _]. fold x in Gh, Ge.
  assert ((r, a) ∈ handled (log (p_ch x))) as Hi.
  { unfold happened in Hh. revert Hh. clear. induction (log (p_ch x)) as [|e lg IH]; [by intros ?%elem_of_nil|].
    intros [<-|H]%elem_of_cons; [by left|]. apply IH in H. destruct e; try done. by right. }
  rewrite <-Gh in Hi. apply elem_of_list_fmap in Hi as ([[r' a'] e] & [= <- <-] & Hi).
  destruct (Ge _ _ _ Hi) as (w & Hw & c & d & H1 & H2 & H3). exists w, e, c, d. split_and!; try done.
  destruct on; [|done]. destruct H3 as (q & h & ? & ? & ?). eauto.
Qed.
Lemma handlers_sum w (ex : list (nat * amsg * option sref)) :
  length (List.filter (λ y, match who_a (snd y) with Some v => whoeqb w v | None => false end) (fst <$> ex)) = Σ (e_who w) ex.
Proof.
  induction ex as [|[[r a] e] ex IH]; [done|]. cbn [fmap list_fmap List.filter sum_list_with fst snd]. rewrite <-IH. unfold e_who. cbn [fst snd].
  destruct (who_a a) as [v|]; [|done]. by destruct (whoeqb w v).
Qed.
Lemma spans_count on k l w : let x := p_run (p_init on k) l in
  if on then named x (NRequest w) ≤ 1 ∧ named x (NWaiting w) = named x (NRequest w) ∧ named x (NHandler w) = handlers w (p_ch x)
  else p_sp x = [].
Proof.
  intros x. destruct (counted_run on k l) as [C1 C2 _]. destruct (good_run on k l) as [_ _ Gon _ _ Gk _ Gh _ _]. fold x in C1, C2, Gon, Gk, Gh.
  destruct on; [|by apply C1]. destruct (C2 Gon w) as (H1 & H2 & H3). rewrite !named_sum, H1, H2, H3. split_and!; [|done|].
  - destruct (Gk w) as [K1 _]. pose proof (born_le w (p_ch x)). lia.
  - unfold handlers. by rewrite <-Gh, handlers_sum.
Qed.
Lemma spans_distinct on k l : let x := p_run (p_init on k) l in on = true → NoDup (snd <$> p_ex x) ∧ fst <$> p_ex x = handled (log (p_ch x)).
Proof.
  intros x ->. destruct (counted_run true k l) as [_ _ C3]. destruct (good_run true k l) as [_ _ Gon _ _ _ _ Gh _ _]. fold x in C3, Gon, Gh.
  split; [by apply C3|done].
Qed.
Lemma spans_first on k l w c c' : sent_under (p_init on k) l w c → sent_under (p_init on k) l w c' → c = c'.
Proof. apply first_unique. Qed.
Lemma spans_transparent on k l : p_ch (p_run (p_init on k) l) = run (init k) (plain <$> l).
Proof.
  induction l as [|[c o] l IH] using rev_ind; [done|]. rewrite p_run_snoc, fmap_app. cbn [fmap list_fmap plain]. rewrite run_snoc, <-IH. cbn.
  by destruct (instrument_ch c o (p_run (p_init on k) l)) as (-> & _).
Qed.
