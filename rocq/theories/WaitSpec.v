(** What taking a blocked sender does, for well-formed lists of handles. *)
From stdpp Require Import base numbers list list_numbers.
From Coq Require Import Lia.
From Verif Require Import Prio Heap State Model HeapProofs Frame Lib Effects InvMsg.

(** ** Comparison of optional priorities *)
Lemma oprio_refl a : oprio_cmp a a = Eq.
Proof. destruct a as [[n|]|]; cbn; try done. apply N.compare_refl. Qed.
Lemma oprio_trans a b c : oprio_cmp a b ≠ Gt → oprio_cmp b c ≠ Gt → oprio_cmp a c ≠ Gt.
Proof.
  destruct a as [[x|]|], b as [[y|]|], c as [[z|]|]; cbn; try done. rewrite !N.compare_gt_iff. lia.
Qed.
Lemma oprio_gt_lt a b : oprio_cmp a b = Gt → oprio_cmp b a = Lt.
Proof.
  destruct a as [[x|]|], b as [[y|]|]; cbn; try done. rewrite N.compare_gt_iff, N.compare_lt_iff. lia.
Qed.
Lemma oprio_lt_le_trans a b c : oprio_cmp a b = Lt → oprio_cmp b c ≠ Gt → oprio_cmp a c = Lt.
Proof.
  destruct a as [[x|]|], b as [[y|]|], c as [[z|]|]; cbn; try done.
  rewrite N.compare_gt_iff, !N.compare_lt_iff. lia.
Qed.

(** ** The position chosen by [max_by_key]: the last one with a maximal key *)
Definition is_max (ks : list (option prio)) (i : nat) (k : option prio) : Prop :=
  ks !! i = Some k ∧
  ∀ j x, ks !! j = Some x → oprio_cmp x k ≠ Gt ∧ (i < j → oprio_cmp x k = Lt).

Lemma max_pos_spec ks pre best :
  match best with
  | Some (j, kj) => is_max pre j kj
  | None => pre = []
  end →
  match max_pos ks (length pre) best with
  | Some (i, k) => is_max (pre ++ ks) i k
  | None => pre ++ ks = []
  end.
Proof.
  revert pre best. induction ks as [|k ks IH]; intros pre best Hb; cbn [max_pos].
  { rewrite app_nil_r. destruct best as [[]|]; done. }
  replace (S (length pre)) with (length (pre ++ [k])) by (rewrite app_length; cbn; lia).
  replace (pre ++ k :: ks) with ((pre ++ [k]) ++ ks) by (by rewrite <-app_assoc).
  apply IH. destruct best as [[j kj]|].
  - destruct Hb as [H1 H2]. pose proof (lookup_lt_Some _ _ _ H1).
    destruct (oprio_cmp kj k) eqn:Hc.
    1,2: split; [rewrite lookup_app_r, Nat.sub_diag by lia; done|];
      intros j' x Hx; (destruct (decide (j' < length pre)); [rewrite lookup_app_l in Hx by lia; split; [|lia];
        destruct (H2 _ _ Hx); eapply oprio_trans; [done|]; by rewrite Hc
      |rewrite lookup_app_r in Hx by lia; destruct (j' - length pre) eqn:E; [|done]; injection Hx as <-;
        split; [by rewrite oprio_refl|lia]]).
    split; [by apply lookup_app_l_Some|]. intros j' x Hx. destruct (decide (j' < length pre)).
    + rewrite lookup_app_l in Hx by lia. by apply H2.
    + rewrite lookup_app_r in Hx by lia. destruct (j' - length pre) eqn:E; [|done]. injection Hx as <-.
      apply oprio_gt_lt in Hc. rewrite Hc. done.
  - subst pre. split; [done|]. intros [|j] x Hx; [|done]. injection Hx as <-.
    split; [by rewrite oprio_refl|lia].
Qed.

Section take.
  Context {A : Type} (key : A → prio).
  Implicit Types (cs : list (wcell A)).

  (** Active cell; resolved cell whose owner is still there. *)
  Definition c_act (x : wcell A) : nat := match x with WC true (WActive _ _) => 1 | _ => 0 end.
  Definition c_res (x : wcell A) : nat :=
    match x with WC true WDelivered | WC true WClosed => 1 | _ => 0 end.

  (** Every active cell has exactly one handle in the queue, resolved ones have none. *)
  Definition wf_handles cs (ws : list nat) : Prop := ∀ c,
    Σ (isn c) ws + at_ c_res cs c ≤ lt1 c (length cs) ∧ at_ c_act cs c ≤ Σ (isn c) ws.

  Lemma sum_filter_le (p : nat → bool) ws c : Σ (isn c) (List.filter p ws) ≤ Σ (isn c) ws.
  Proof. induction ws as [|w ws IH]; simpl; [done|]. destruct (p w); simpl; lia. Qed.
  Lemma sum_filter_in (p : nat → bool) ws c : p c = true → Σ (isn c) (List.filter p ws) = Σ (isn c) ws.
  Proof.
    intros Hp. induction ws as [|w ws IH]; simpl; [done|]. destruct (p w) eqn:E; simpl; [lia|].
    unfold isn at 2. destruct (Nat.eqb_spec w c); [congruence|lia].
  Qed.
  Lemma sum_isn_elem ws c : c ∈ ws ↔ 0 < Σ (isn c) ws.
  Proof.
    split.
    - intros H. pose proof (sum_elem (isn c) ws c H) as Hs. unfold isn in Hs at 1.
      rewrite Nat.eqb_refl in Hs. lia.
    - intros (x & Hx & Hp)%sum_pos. unfold isn in Hp. destruct (Nat.eqb_spec x c); [by subst|lia].
  Qed.
  Lemma sum_delete_isn ws i x c : ws !! i = Some x → Σ (isn c) (delete i ws) + isn c x = Σ (isn c) ws.
  Proof.
    revert i; induction ws as [|w ws IH]; intros [|i] H; simpl in *; try done.
    - injection H as ->. lia.
    - specialize (IH _ H). lia.
  Qed.

  (** Taking from the queue: the last handle of maximal priority among the handles
      of live cells; only handles of dead cells are lost besides. *)
  Lemma try_take_spec n cs ws cs' ws' r :
    wf_handles cs ws →
    try_take key (S n) cs ws = (cs', ws', r) →
    match r with
    | Some (m, w) => ∃ c,
        cs !! c = Some (WC true (WActive w m)) ∧ cs' = <[c := WC true WDelivered]> cs ∧
        (∀ k, Σ (isn k) ws' ≤ Σ (isn k) ws) ∧ Σ (isn c) ws' = 0 ∧
        (∀ k, k ≠ c → at_ c_act cs k ≤ Σ (isn k) ws') ∧
        ∃ i, List.filter (cell_active cs) ws !! i = Some c ∧
             is_max (map (cell_prio key cs) (List.filter (cell_active cs) ws)) i (Some (key m))
    | None => cs' = cs ∧ ws' = [] ∧ (∀ k, at_ c_act cs k = 0)
    end.
  Proof.
    intros Hwf. cbn [try_take]. unfold find_remove.
    set (f := List.filter (cell_active cs) ws).
    pose proof (max_pos_spec (map (cell_prio key cs) f) [] None eq_refl) as HM. cbn in HM.
    assert (∀ k, at_ c_act cs k = 1 → 0 < Σ (isn k) f) as Hact.
    { intros k Hk. subst f. rewrite sum_filter_in; [destruct (Hwf k); lia|].
      unfold cell_active, at_ in *. destruct (cs !! k) as [[[] []]|]; cbn in *; done. }
    destruct (max_pos _ 0 None) as [[i kp]|] eqn:Emax.
    2: { assert (f = []) as Hf by (by destruct f). intros [= <- <- <-]. split_and!; [done|done|].
         intros k. pose proof (at_bound c_act cs k 1 ltac:(intros [[] []]; cbn; lia)).
         specialize (Hact k). rewrite Hf in Hact. cbn in Hact. lia. }
    pose proof HM as [Hi Hmax].
    rewrite list_lookup_fmap in Hi. destruct (f !! i) as [c|] eqn:Hfi; [|done].
    cbn in Hi. injection Hi as Hi.
    assert (c ∈ f) as Hcf by (by eapply elem_of_list_lookup_2).
    assert (cell_active cs c = true) as Hca.
    { subst f. apply elem_of_list_In, filter_In in Hcf. tauto. }
    assert (c ∈ ws) as Hcw.
    { subst f. apply elem_of_list_In, filter_In in Hcf. apply elem_of_list_In. tauto. }
    apply sum_isn_elem in Hcw. destruct (Hwf c) as [Hw1 Hw2].
    assert (lt1 c (length cs) ≤ 1) by (unfold lt1; case_match; lia).
    unfold cell_active in Hca. destruct (cs !! c) as [[a st]|] eqn:Hc; [|done]. cbn in Hca. subst a.
    unfold take_message. rewrite Hc. unfold at_ in Hw1. rewrite Hc in Hw1.
    destruct st as [w m| |]; cbn in Hw1; try lia.
    intros [= <- <- <-]. exists c.
    assert (∀ k, Σ (isn k) (delete i f) + isn k c = Σ (isn k) f) as Hd by (intros; by apply sum_delete_isn).
    assert (∀ k, Σ (isn k) f ≤ Σ (isn k) ws) as Hle by (intros; apply sum_filter_le).
    split_and!; try done.
    - intros k. specialize (Hd k). specialize (Hle k). lia.
    - specialize (Hd c). specialize (Hle c). unfold isn in Hd at 2. rewrite Nat.eqb_refl in Hd. lia.
    - intros k Hk. specialize (Hd k). unfold isn in Hd at 2. destruct (Nat.eqb_spec c k); [done|].
      pose proof (at_bound c_act cs k 1 ltac:(intros [[] []]; cbn; lia)). specialize (Hact k). lia.
    - exists i. split; [done|]. subst kp. unfold cell_prio in HM at 2. rewrite Hc in HM. done.
  Qed.

  Lemma try_take_wf n cs ws cs' ws' r :
    wf_handles cs ws → try_take key (S n) cs ws = (cs', ws', r) → wf_handles cs' ws'.
  Proof.
    intros Hwf E. pose proof (try_take_spec _ _ _ _ _ _ Hwf E) as H. destruct r as [[m w]|].
    - destruct H as (c & Hc & -> & H1 & H2 & H3 & _). intros k. rewrite insert_length.
      rewrite !(at_insert _ _ _ _ _ _ Hc). destruct (Hwf k) as [W1 W2]. specialize (H1 k). specialize (H3 k).
      destruct (Nat.eqb_spec c k) as [->|]; cbn.
      + unfold at_ in *. rewrite Hc in *. cbn in *. pose proof (lookup_lt_Some _ _ _ Hc).
        rewrite H2. unfold lt1. destruct (Nat.ltb_spec k (length cs)); lia.
      + split; [lia|]. apply H3. done.
    - destruct H as (-> & -> & H3). intros k. destruct (Hwf k). rewrite H3. cbn. split; lia.
  Qed.

End take.

Lemma wf_new {A} (cs : list (wcell A)) ws m w : wf_handles cs ws → wf_handles (cs ++ [WC true (WActive w m)]) (ws ++ [length cs]).
Proof.
  intros Hwf c. destruct (Hwf c) as [H1 H2]. rewrite !at_snoc, sum_snoc, app_length. cbn [length].
  rewrite Nat.add_1_r, lt1_S. unfold isn in *. destruct (Nat.eqb_spec (length cs) c) as [Hc|]; cbn [c_res c_act]; [|lia].
  rewrite (at_ge c_res) in H1 by lia. rewrite (at_ge c_act) in H2 by lia. lia.
Qed.
Lemma wf_insert {A} (cs : list (wcell A)) ws c x y :
  wf_handles cs ws → cs !! c = Some x → c_res y ≤ c_res x → c_act y ≤ c_act x →
  wf_handles (<[c := y]> cs) ws.
Proof.
  intros Hwf Hc Hr Ha k. destruct (Hwf k) as [H1 H2]. rewrite !(at_insert _ _ _ _ _ _ Hc), insert_length.
  destruct (Nat.eqb_spec c k) as [->|]; [|done]. unfold at_ in *. rewrite Hc in *. lia.
Qed.
