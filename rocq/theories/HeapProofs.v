(** Correctness of the binary heap: contents, order, and the order of pops. *)
From stdpp Require Import base numbers list sorting.
From Coq Require Import ZArith Lia ZifyNat.
From Verif Require Import Prio Heap.
Ltac Zify.zify_post_hook ::= Z.div_mod_to_equations.

Lemma prio_leb_refl a : prio_leb a a = true.
Proof. destruct a; unfold prio_leb; simpl; [|done]. by rewrite N.compare_refl. Qed.

Lemma prio_leb_trans a b c : prio_leb a b = true → prio_leb b c = true → prio_leb a c = true.
Proof.
  destruct a as [x|], b as [y|], c as [z|]; unfold prio_leb; simpl; try done.
  destruct (N.compare_spec x y), (N.compare_spec y z), (N.compare_spec x z); try done; lia.
Qed.

Lemma prio_leb_total a b : prio_leb a b = false → prio_leb b a = true.
Proof.
  destruct a as [x|], b as [y|]; unfold prio_leb; simpl; try done.
  destruct (N.compare_spec x y), (N.compare_spec y x); try done; lia.
Qed.

Lemma prio_leb_antisym a b : prio_leb a b = true → prio_leb b a = true → a = b.
Proof.
  destruct a as [x|], b as [y|]; unfold prio_leb; simpl; try done.
  destruct (N.compare_spec x y), (N.compare_spec y x); try done; try lia; by subst.
Qed.

Section heap.
  Context {A : Type} (key : A → prio).
  Notation leb := (leb key).
  Notation sift_up := (sift_up key).
  Notation sift_down := (sift_down key).
  Notation heap_push := (heap_push key).
  Notation heap_pop := (heap_pop key).

  Lemma leb_refl a : leb a a = true. Proof. apply prio_leb_refl. Qed.
  Lemma leb_trans a b c : leb a b = true → leb b c = true → leb a c = true.
  Proof. apply prio_leb_trans. Qed.
  Lemma leb_total a b : leb a b = false → leb b a = true.
  Proof. apply prio_leb_total. Qed.

  (** ** Contents *)
  Lemma swap_length (l : list A) i j : length (swap l i j) = length l.
  Proof. unfold swap. repeat case_match; rewrite ?insert_length; done. Qed.

  Lemma swap_lookup (l : list A) i j x y k :
    l !! i = Some x → l !! j = Some y →
    swap l i j !! k = if decide (k = i) then Some y else if decide (k = j) then Some x else l !! k.
  Proof.
    intros Hi Hj. unfold swap. rewrite Hi, Hj.
    pose proof (lookup_lt_Some _ _ _ Hi). pose proof (lookup_lt_Some _ _ _ Hj).
    destruct (decide (k = i)) as [->|Hki].
    - rewrite list_lookup_insert; [done|by rewrite insert_length].
    - rewrite list_lookup_insert_ne by done.
      destruct (decide (k = j)) as [->|Hkj].
      + by rewrite list_lookup_insert.
      + by rewrite list_lookup_insert_ne.
  Qed.

  Lemma swap_perm (l : list A) i j : swap l i j ≡ₚ l.
  Proof.
    unfold swap. destruct (l !! i) as [x|] eqn:Hi; [|done]. destruct (l !! j) as [y|] eqn:Hj; [|done].
    destruct (decide (i = j)) as [->|Hij].
    { rewrite Hi in Hj. injection Hj as <-.
      rewrite list_insert_id; [|rewrite list_lookup_insert; [done|by eapply lookup_lt_Some]].
      by rewrite list_insert_id. }
    apply Permutation_inj. split.
    - by rewrite !insert_length.
    - exists (λ k, if decide (k = i) then j else if decide (k = j) then i else k). split.
      + intros a b. repeat case_decide; subst; try done; lia.
      + intros k. pose proof (swap_lookup l i j x y k Hi Hj) as H.
        unfold swap in H. rewrite Hi, Hj in H. rewrite H.
        repeat case_decide; subst; done.
  Qed.

  Lemma sift_up_perm n l p : sift_up n l p ≡ₚ l.
  Proof.
    revert l p; induction n as [|n IH]; intros l p; simpl; [done|].
    repeat case_match; try done. rewrite IH. apply swap_perm.
  Qed.

  Lemma sift_up_length n l p : length (sift_up n l p) = length l.
  Proof. by rewrite sift_up_perm. Qed.

  Lemma sift_down_perm n l p : fst (sift_down n l p) ≡ₚ l.
  Proof.
    revert l p; induction n as [|n IH]; intros l p; cbn [Heap.sift_down]; [done|].
    repeat case_match; try done.
    - rewrite IH. apply swap_perm.
    - rewrite IH. apply swap_perm.
    - apply swap_perm.
  Qed.

  Lemma heap_push_perm x l : heap_push x l ≡ₚ x :: l.
  Proof. unfold Heap.heap_push. rewrite sift_up_perm. by rewrite Permutation_app_comm. Qed.

  Lemma heap_push_length x l : length (heap_push x l) = S (length l).
  Proof. by rewrite heap_push_perm. Qed.

  Lemma last_removelast_perm (l : list A) d : l ≠ [] → List.last l d :: List.removelast l ≡ₚ l.
  Proof.
    intros H. rewrite (app_removelast_last d H) at 3.
    by rewrite Permutation_app_comm.
  Qed.

  Lemma heap_pop_perm l x h : heap_pop l = Some (x, h) → l ≡ₚ x :: h.
  Proof.
    destruct l as [|r [|a rest]]; cbn -[Heap.sift_down Heap.sift_up List.last List.removelast]; [done| |].
    - by intros [= -> <-].
    - destruct (sift_down _ _ _) as [d p] eqn:E. intros [= -> <-].
      rewrite sift_up_perm. apply Permutation_skip.
      pose proof (sift_down_perm (S (length (removelast (a :: rest))))
                    (List.last (a :: rest) x :: removelast (a :: rest)) 0) as HP.
      cbn [length] in E. rewrite E in HP. cbn [fst] in HP. rewrite HP.
      symmetry. by apply last_removelast_perm.
  Qed.

  Lemma heap_pop_None l : heap_pop l = None ↔ l = [].
  Proof.
    destruct l as [|r [|a rest]]; cbn -[Heap.sift_down Heap.sift_up List.last List.removelast]; try done.
    by destruct (sift_down _ _ _).
  Qed.

  Lemma heap_pop_length l x h : heap_pop l = Some (x, h) → length l = S (length h).
  Proof. intros H%heap_pop_perm. by rewrite H. Qed.

  Lemma heap_pop_peek l x h : heap_pop l = Some (x, h) → heap_peek l = Some x.
  Proof.
    destruct l as [|r [|a rest]]; cbn -[Heap.sift_down Heap.sift_up List.last List.removelast]; [done| |].
    - by intros [= -> <-].
    - destruct (sift_down _ _ _) as [d p] eqn:E. by intros [= -> <-].
  Qed.

  Lemma heap_peek_pop l x : heap_peek l = Some x → ∃ h, heap_pop l = Some (x, h).
  Proof.
    intros H. destruct (heap_pop l) as [[y h]|] eqn:E.
    - pose proof (heap_pop_peek _ _ _ E). exists h. congruence.
    - apply heap_pop_None in E. by subst.
  Qed.

  (** ** Order *)
  Definition par (i : nat) : nat := (i - 1) / 2.

  Definition rel (l : list A) (i j : nat) : Prop :=
    ∀ x y, l !! i = Some x → l !! j = Some y → leb x y = true.

  (** Every element is at most its parent. *)
  Definition heap_ok (l : list A) : Prop := ∀ i, 0 < i → rel l i (par i).

  (** Precondition of [sift_up]. *)
  Definition up_ok (l : list A) (pos : nat) : Prop :=
    (∀ i, 0 < i → i ≠ pos → rel l i (par i)) ∧
    (∀ c, 0 < c → 0 < pos → par c = pos → rel l c (par pos)).

  (** Invariant of [sift_down]. *)
  Definition down_ok (l : list A) (pos : nat) : Prop :=
    (∀ i, 0 < i → i ≠ pos → par i ≠ pos → rel l i (par i)) ∧
    (∀ c, 0 < c → 0 < pos → par c = pos → rel l c (par pos)).

  Lemma par_lt i : 0 < i → par i < i.
  Proof. unfold par. lia. Qed.

  Lemma sift_up_ok n l pos :
    pos ≤ n → pos < length l → up_ok l pos → heap_ok (sift_up n l pos).
  Proof.
    revert l pos; induction n as [|n IH]; intros l pos Hn Hlen [H1 H2]; cbn [Heap.sift_up].
    { intros i Hi. apply H1; [done|lia]. }
    destruct (decide (pos = 0)) as [->|Hp].
    { intros i Hi. apply H1; [done|lia]. }
    change ((pos - 1) / 2) with (par pos).
    assert (par pos < pos) as Hpar by (apply par_lt; lia).
    destruct (l !! pos) as [x|] eqn:Hx; [|apply lookup_ge_None in Hx; lia].
    destruct (l !! par pos) as [p|] eqn:Hpp; [|apply lookup_ge_None in Hpp; lia].
    destruct (leb x p) eqn:Hle.
    { intros i Hi. destruct (decide (i = pos)) as [->|]; [|by apply H1].
      intros x' y'. rewrite Hx, Hpp. by intros [= <-] [= <-]. }
    apply leb_total in Hle.
    apply IH; [lia|rewrite swap_length; lia|].
    pose proof (swap_lookup l pos (par pos) x p) as HS.
    split.
    - intros i Hi Hne a b. rewrite !HS by done.
      destruct (decide (i = pos)) as [->|Hip].
      { intros [= <-]. destruct (decide (par pos = pos)); [lia|].
        destruct (decide (par pos = par pos)); [|done]. by intros [= <-]. }
      destruct (decide (i = par pos)); [done|]. intros Ha.
      destruct (decide (par i = pos)) as [Hpi|].
      { intros [= <-]. exact (H2 i Hi ltac:(lia) Hpi a p Ha Hpp). }
      destruct (decide (par i = par pos)) as [Hpi|].
      { intros [= <-]. eapply leb_trans; [|exact Hle].
        eapply (H1 i); [done|done|exact Ha|]. by rewrite Hpi. }
      intros Hb. by eapply (H1 i).
    - intros c Hc Hpp0 Hpc a b. rewrite !HS by done.
      assert (par (par pos) < par pos) by (apply par_lt; lia).
      destruct (decide (par (par pos) = pos)); [lia|].
      destruct (decide (par (par pos) = par pos)); [lia|].
      assert (c ≠ par pos) by (intros ->; lia).
      destruct (decide (c = pos)) as [->|].
      { intros [= <-] Hb. eapply (H1 (par pos)); [lia|lia|exact Hpp|exact Hb]. }
      destruct (decide (c = par pos)); [done|].
      intros Ha Hb. eapply leb_trans.
      + eapply (H1 c); [done|done|exact Ha|]. by rewrite Hpc.
      + eapply (H1 (par pos)); [lia|lia|exact Hpp|exact Hb].
  Qed.

  Lemma par_child c pos : 0 < c → par c = pos → c = 2 * pos + 1 ∨ c = 2 * pos + 2.
  Proof. unfold par. lia. Qed.

  Lemma down_step l pos c x y :
    par c = pos → 0 < c → l !! pos = Some x → l !! c = Some y → down_ok l pos →
    (∀ c' z, 0 < c' → par c' = pos → l !! c' = Some z → leb z y = true) →
    down_ok (swap l pos c) c.
  Proof.
    intros Hpc Hc0 Hx Hy [H1 H2] Hmax.
    pose proof (swap_lookup l pos c x y) as HS.
    assert (pos < c) by (rewrite <-Hpc; by apply par_lt).
    split.
    - intros i Hi Hne Hpne a b. rewrite !HS by done.
      destruct (decide (i = pos)) as [->|Hip].
      { intros [= <-]. pose proof (par_lt pos Hi).
        destruct (decide (par pos = pos)); [lia|]. destruct (decide (par pos = c)); [lia|].
        intros Hb. by eapply (H2 c). }
      destruct (decide (i = c)); [done|]. intros Ha.
      destruct (decide (par i = pos)) as [Hpi|].
      { intros [= <-]. by eapply Hmax. }
      destruct (decide (par i = c)); [done|].
      intros Hb. by eapply (H1 i).
    - intros c2 Hc2 _ Hp2 a b. rewrite !HS by done. rewrite Hpc.
      pose proof (par_lt c2 Hc2).
      destruct (decide (pos = pos)); [|done].
      destruct (decide (c2 = pos)); [lia|]. destruct (decide (c2 = c)); [lia|].
      intros Ha [= <-]. eapply (H1 c2); [done|lia|lia|exact Ha|]. by rewrite Hp2.
  Qed.

  Lemma sift_down_ok n l pos :
    length l ≤ n + pos → pos < length l → down_ok l pos →
    let '(d, p) := sift_down n l pos in up_ok d p ∧ p < length d.
  Proof.
    revert l pos; induction n as [|n IH]; intros l pos Hn Hlen Hok; cbn [Heap.sift_down]; [lia|].
    assert (∀ c x y, par c = pos → 0 < c → l !! pos = Some x → l !! c = Some y →
      (∀ c' z, 0 < c' → par c' = pos → l !! c' = Some z → leb z y = true) →
      down_ok (swap l pos c) c) as Hstep by (intros; by eapply down_step).
    destruct (l !! pos) as [x|] eqn:Hx; [|apply lookup_ge_None in Hx; lia].
    case_decide as Hd.
    - destruct (l !! (2 * pos + 1)) as [a|] eqn:Ha; [|apply lookup_ge_None in Ha; lia].
      destruct (l !! (2 * pos + 1 + 1)) as [b|] eqn:Hb; [|apply lookup_ge_None in Hb; lia].
      destruct (leb a b) eqn:Hab.
      + apply IH; [rewrite swap_length; lia|rewrite swap_length; lia|].
        eapply Hstep; [unfold par; lia|lia|done|done|].
        intros c' z Hc' Hp Hz. destruct (par_child _ _ Hc' Hp) as [->| ->].
        * congruence.
        * replace (2 * pos + 2) with (2 * pos + 1 + 1) in Hz by lia.
          assert (z = b) as -> by congruence. apply leb_refl.
      + apply leb_total in Hab.
        apply IH; [rewrite swap_length; lia|rewrite swap_length; lia|].
        eapply Hstep; [unfold par; lia|lia|done|done|].
        intros c' z Hc' Hp Hz. destruct (par_child _ _ Hc' Hp) as [->| ->].
        * assert (z = a) as -> by congruence. apply leb_refl.
        * replace (2 * pos + 2) with (2 * pos + 1 + 1) in Hz by lia.
          congruence.
    - case_decide as Hd2.
      + destruct (l !! (2 * pos + 1)) as [a|] eqn:Ha; [|apply lookup_ge_None in Ha; lia].
        assert (down_ok (swap l pos (2 * pos + 1)) (2 * pos + 1)) as [D1 D2].
        { eapply Hstep; [unfold par; lia|lia|done|done|].
          intros c' z Hc' Hp Hz. destruct (par_child _ _ Hc' Hp) as [->| ->].
          - assert (z = a) as -> by congruence. apply leb_refl.
          - apply lookup_lt_Some in Hz. lia. }
        split; [|rewrite swap_length; lia]. split; [|exact D2].
        intros i Hi Hne. destruct (decide (par i = 2 * pos + 1)) as [Hpi|]; [|by apply D1].
        intros ? ? Hi2%lookup_lt_Some. rewrite swap_length in Hi2.
        destruct (par_child _ _ Hi Hpi); lia.
      + split; [|done]. destruct Hok as [D1 D2]. split; [|exact D2].
        intros i Hi Hne. destruct (decide (par i = pos)) as [Hpi|]; [|by apply D1].
        intros ? ? Hi2%lookup_lt_Some. destruct (par_child _ _ Hi Hpi); lia.
  Qed.

  Lemma heap_ok_nil : heap_ok [].
  Proof. intros i _ x y. by rewrite lookup_nil. Qed.

  Lemma heap_push_ok x l : heap_ok l → heap_ok (heap_push x l).
  Proof.
    intros Hok. unfold Heap.heap_push. apply sift_up_ok; [lia|rewrite app_length; simpl; lia|].
    split.
    - intros i Hi Hne a b Ha Hb.
      apply lookup_app_Some in Ha as [Ha|[? Ha]]; [|apply list_lookup_singleton_Some in Ha as [? ->]; lia].
      pose proof (lookup_lt_Some _ _ _ Ha). pose proof (par_lt i Hi).
      rewrite lookup_app_l in Hb by lia. by eapply Hok.
    - intros c Hc Hl Hp a b Ha%lookup_lt_Some. rewrite app_length in Ha. simpl in Ha.
      pose proof (par_lt c Hc). lia.
  Qed.

  Lemma removelast_lookup (l : list A) i : i < length l - 1 → List.removelast l !! i = l !! i.
  Proof.
    revert i; induction l as [|a [|b l] IH]; intros i Hi; [done|simpl in *; lia|].
    destruct i as [|i]; [done|].
    change (List.removelast (b :: l) !! i = (b :: l) !! i). apply IH. simpl in *; lia.
  Qed.

  Lemma removelast_length (l : list A) : length (List.removelast l) = length l - 1.
  Proof. induction l as [|a [|b l] IH]; [done|done|]. cbn [List.removelast length] in *. lia. Qed.

  Lemma heap_pop_ok l x h : heap_ok l → heap_pop l = Some (x, h) → heap_ok h.
  Proof.
    intros Hok. destruct l as [|r [|a rest]]; cbn -[Heap.sift_down Heap.sift_up List.last List.removelast]; [done| |].
    { intros [= -> <-]. apply heap_ok_nil. }
    destruct (sift_down _ _ _) as [d p] eqn:E. intros [= -> <-].
    set (data := List.last (a :: rest) x :: List.removelast (a :: rest)) in *.
    pose proof (sift_down_ok (length data) data 0) as HS.
    replace (length data) with (S (length (removelast (a :: rest)))) in HS by done.
    rewrite E in HS.
    destruct HS as [Hup Hp]; [subst data; cbn [length]; lia|subst data; cbn [length]; lia| |].
    { split; [|intros; lia]. intros i Hi _ Hp u v Hu Hv.
      assert (length data = S (length rest)) as Hl.
      { subst data. cbn [length]. rewrite removelast_length. simpl. lia. }
      pose proof (lookup_lt_Some _ _ _ Hu) as Hil.
      assert (∀ j, 0 < j → j < length data → data !! j = (x :: a :: rest) !! j) as Hdj.
      { intros j Hj Hjl. destruct j as [|j]; [lia|].
        transitivity (List.removelast (a :: rest) !! j); [done|].
        rewrite removelast_lookup; [done|]. simpl. lia. }
      pose proof (par_lt i Hi).
      rewrite Hdj in Hu, Hv by lia. by eapply Hok. }
    by apply sift_up_ok.
  Qed.

  (** The root is a maximum. *)
  Lemma heap_ok_root l i x y :
    heap_ok l → l !! 0 = Some x → l !! i = Some y → leb y x = true.
  Proof.
    intros Hok Hx. revert y. induction (lt_wf i) as [i _ IH]. intros y Hy.
    destruct (decide (i = 0)) as [->|Hi].
    { assert (x = y) as -> by congruence. apply leb_refl. }
    assert (par i < i) by (apply par_lt; lia).
    destruct (l !! par i) as [p|] eqn:Hp.
    - eapply leb_trans; [|by eapply IH]. eapply (Hok i); [lia|exact Hy|exact Hp].
    - apply lookup_ge_None in Hp. apply lookup_lt_Some in Hy. lia.
  Qed.

  Lemma heap_peek_max l x : heap_ok l → heap_peek l = Some x → ∀ y, y ∈ l → leb y x = true.
  Proof.
    intros Hok Hx y [i Hi]%elem_of_list_lookup.
    eapply heap_ok_root; [done| |exact Hi]. destruct l; [done|]. simpl in *. congruence.
  Qed.

  Lemma heap_pop_max l x h : heap_ok l → heap_pop l = Some (x, h) → ∀ y, y ∈ h → leb y x = true.
  Proof.
    intros Hok Hp y Hy. eapply heap_peek_max; [done|by eapply heap_pop_peek|].
    rewrite (heap_pop_perm _ _ _ Hp). by apply elem_of_list_further.
  Qed.
End heap.
