(** Proofs about the identity of addresses. *)
From stdpp Require Import base numbers list list_numbers.
From Coq Require Import Lia.
From Verif Require Import AddrEq AddrSpec Lib.

Definition h_arc (c : nat) (a : handle) : nat := if hd_live a && (hd_chan a =? c) then 1 else 0.
Definition h_tx (c : nat) (a : handle) : nat := if hd_live a && (hd_chan a =? c) then counts (hd_policy a) else 0.
Definition WI (w : world) : Prop :=
  (∀ i a, handles w !! i = Some a → hd_chan a < length (chans w)) ∧
  (∀ c k, chans w !! c = Some k → ch_arcs k = Σ (h_arc c) (handles w) ∧ ch_tx k = Σ (h_tx c) (handles w)) ∧
  (∀ c d k l, chans w !! c = Some k → chans w !! d = Some l → 0 < ch_arcs k → 0 < ch_arcs l → ch_loc k = ch_loc l → c = d).
Lemma free_loc_spec l w : free_loc l w = true → ∀ c k, chans w !! c = Some k → 0 < ch_arcs k → ch_loc k ≠ l.
Proof.
  unfold free_loc. rewrite forallb_forall. intros H c k Hk Ha <-. apply elem_of_list_lookup_2, elem_of_list_In, H in Hk.
  rewrite Nat.eqb_refl in Hk. destruct (Nat.eqb_spec (ch_arcs k) 0); [lia|done].
Qed.
Lemma WI_new l w : WI w → WI (new_channel l w).
Proof.
  intros (I1 & I2 & I3). unfold new_channel. destruct (free_loc l w) eqn:E; [|done]. pose proof (free_loc_spec _ _ E) as HF. split; [|split]; cbn.
  - intros i a [H|[_ H]]%lookup_app_Some; rewrite app_length; cbn; [apply I1 in H; lia|]. destruct (i - length (handles w)) as [|[|n]]; cbn in H; [simplify_eq; cbn; lia..|by destruct n].
  - assert (∀ g c, (∀ a, hd_chan a < c → g a = 0) → c = length (chans w) → Σ g (handles w) = 0) as HZ.
    { intros g c Hg ->. apply sum_zero. intros a [i Ha]%elem_of_list_lookup. by eapply Hg, I1. }
    intros c k [H|[Hl H]]%lookup_app_Some.
    + pose proof (lookup_lt_Some _ _ _ H) as Hlt. destruct (I2 _ _ H) as [-> ->]. rewrite !sum_list_with_app. cbn. unfold h_arc, h_tx. cbn. destruct (Nat.eqb_spec (length (chans w)) c); [lia|]. cbn. lia.
    + apply list_lookup_singleton_Some in H as [Hc <-]. assert (c = length (chans w)) as -> by lia. rewrite !sum_list_with_app. cbn.
      rewrite (HZ (h_arc (length (chans w))) (length (chans w))), (HZ (h_tx (length (chans w))) (length (chans w))); try done.
      * unfold h_arc, h_tx. cbn. rewrite Nat.eqb_refl. done.
      * intros a Ha. unfold h_tx. destruct (Nat.eqb_spec (hd_chan a) (length (chans w))); [lia|]. by rewrite andb_false_r.
      * intros a Ha. unfold h_arc. destruct (Nat.eqb_spec (hd_chan a) (length (chans w))); [lia|]. by rewrite andb_false_r.
  - intros c d k m [Hc|[Hl Hc]]%lookup_app_Some [Hd|[Hm Hd]]%lookup_app_Some Hk0 Hm0 He.
    + by eapply I3.
    + apply list_lookup_singleton_Some in Hd as [? <-]. by eapply HF in Hc.
    + apply list_lookup_singleton_Some in Hc as [? <-]. cbn in He. by eapply HF in Hd.
    + apply list_lookup_singleton_Some in Hc as [? _]. apply list_lookup_singleton_Some in Hd as [? _]. lia.
Qed.
Lemma WI_add i a k p e w : handles w !! i = Some a → hd_live a = true → chans w !! hd_chan a = Some k → WI w → WI (add_handle (hd_chan a) p e k w).
Proof.
  intros Ha Hl Hk (I1 & I2 & I3). pose proof (lookup_lt_Some _ _ _ Hk) as Hlt. unfold add_handle. split; [|split]; cbn.
  - intros j b [H|[_ H]]%lookup_app_Some; rewrite insert_length; [by eapply I1|]. by apply list_lookup_singleton_Some in H as [_ <-].
  - intros c k' [(<- & <- & _)|[Hne H]]%list_lookup_insert_Some; rewrite !sum_snoc; unfold h_arc at 2, h_tx at 2; cbn.
    + rewrite Nat.eqb_refl. cbn. destruct (I2 _ _ Hk) as [-> ->]. lia.
    + destruct (I2 _ _ H) as [-> ->]. destruct (Nat.eqb_spec (hd_chan a) c); [done|]. lia.
  - assert (0 < ch_arcs k) as Hp. { destruct (I2 _ _ Hk) as [-> _]. pose proof (sum_lookup (h_arc (hd_chan a)) _ _ _ Ha) as H. unfold h_arc in H at 1. rewrite Hl, Nat.eqb_refl in H. cbn in H. lia. }
    intros c d k1 k2 [(<- & <- & _)|[Hn1 H1]]%list_lookup_insert_Some [(<- & <- & _)|[Hn2 H2]]%list_lookup_insert_Some; cbn; intros Hp1 Hp2 He; try done.
    + exact (I3 _ _ _ _ Hk H2 Hp Hp2 He).
    + exact (I3 _ _ _ _ H1 Hk Hp1 Hp He).
    + exact (I3 _ _ _ _ H1 H2 Hp1 Hp2 He).
Qed.
Lemma WI_drop i w : WI w → WI (drop_handle i w).
Proof.
  intros (I1 & I2 & I3). unfold drop_handle. destruct (handles w !! i) as [a|] eqn:Ha; [|done]. destruct (hd_live a) eqn:Hl; [|done].
  destruct (chans w !! hd_chan a) as [k|] eqn:Hk; [|done]. split; [|split]; cbn.
  - intros j b [(<- & <- & _)|[_ H]]%list_lookup_insert_Some; rewrite insert_length; [cbn|]; by eapply I1.
  - intros c k' H. pose proof (sum_insert (h_arc c) _ _ _ (HD (hd_chan a) (hd_policy a) (hd_erased a) false) Ha) as S1.
    pose proof (sum_insert (h_tx c) _ _ _ (HD (hd_chan a) (hd_policy a) (hd_erased a) false) Ha) as S2.
    pose proof (sum_lookup (h_arc c) _ _ _ Ha) as L1. pose proof (sum_lookup (h_tx c) _ _ _ Ha) as L2.
    unfold h_arc in S1 at 2 4, L1 at 1. unfold h_tx in S2 at 2 4, L2 at 1. cbn in *. rewrite Hl in *. cbn in *.
    apply list_lookup_insert_Some in H as [(<- & <- & _)|[Hne H]].
    + destruct (I2 _ _ Hk) as [E1 E2]. rewrite Nat.eqb_refl in *. cbn. lia.
    + destruct (I2 _ _ H) as [-> ->]. destruct (Nat.eqb_spec (hd_chan a) c); [done|]. lia.
  - intros c d k1 k2 [(<- & <- & _)|[Hn1 H1]]%list_lookup_insert_Some [(<- & <- & _)|[Hn2 H2]]%list_lookup_insert_Some; cbn; intros Hp1 Hp2 He; try done.
    + eapply (I3 _ _ _ _ Hk H2); [lia|done..].
    + eapply (I3 _ _ _ _ H1 Hk); [done|lia|done].
    + exact (I3 _ _ _ _ H1 H2 Hp1 Hp2 He).
Qed.
Lemma WI_conv v i w w' : WI w → convert v i w = Some w' → WI w'.
Proof.
  intros HI. unfold convert. destruct (handles w !! i) as [a|] eqn:Ha; [|done]. destruct (hd_live a) eqn:Hl; [|done].
  destruct (chans w !! hd_chan a) as [k|] eqn:Hk; [|done]. destruct (conv_policy v a k) as [p|] eqn:Hp; [|done].
  destruct v; intros [= <-]; try (by eapply WI_add). destruct HI as (I1 & I2 & I3). split; [|split]; cbn; [| |done].
  - intros j b [[(<- & <- & _)|[_ H]]%list_lookup_insert_Some|[_ H]]%lookup_app_Some; cbn; try (by eapply I1). apply list_lookup_singleton_Some in H as [_ <-]. cbn. by eapply I1.
  - intros c k' H. pose proof (sum_insert (h_arc c) _ _ _ (HD (hd_chan a) (hd_policy a) (hd_erased a) false) Ha) as S1.
    pose proof (sum_insert (h_tx c) _ _ _ (HD (hd_chan a) (hd_policy a) (hd_erased a) false) Ha) as S2. rewrite !sum_snoc.
    assert (p = hd_policy a) as -> by (unfold conv_policy in Hp; destruct (hd_policy a), (hd_erased a); by simplify_eq).
    unfold h_arc in S1 at 2 4 |- * at 2. unfold h_tx in S2 at 2 4 |- * at 2. cbn in *. rewrite Hl in *. cbn in *. destruct (I2 _ _ H) as [-> ->]. destruct (hd_chan a =? c); cbn; lia.
Qed.
Lemma WI_run w : wreachable w → WI w.
Proof.
  intros [ops ->]. assert (WI start) as H0. { split; [|split]; cbn. - intros i a. by rewrite lookup_nil. - intros c k. by rewrite lookup_nil. - intros c d k l. by rewrite lookup_nil. }
  revert H0. generalize start. unfold wrun. induction ops as [|o ops IH]; intros w H; [done|]. cbn. apply IH. destruct o; cbn.
  - by apply WI_new.
  - destruct (convert v i w) eqn:E; [by eapply WI_conv|done].
  - by apply WI_drop.
Qed.

Lemma is_strong_spec a : sender a → is_strong (hd_policy a) = true ↔ strong a.
Proof. unfold sender, strong. destruct (hd_policy a) as [| |[]|]; cbn; intuition congruence. Qed.
Lemma ptr_chan w a b : wreachable w → exists_in w a → exists_in w b → inner_ptr w a = inner_ptr w b ↔ same_channel a b.
Proof.
  intros Hw (i & Ha & La) (j & Hb & Lb). destruct (WI_run w Hw) as (I1 & I2 & I3). unfold inner_ptr, same_channel. split; [|by intros ->].
  destruct (lookup_lt_is_Some_2 _ _ (I1 _ _ Ha)) as [k Hk]. destruct (lookup_lt_is_Some_2 _ _ (I1 _ _ Hb)) as [l Hl]. rewrite Hk, Hl. intros He.
  eapply I3; try done.
  - destruct (I2 _ _ Hk) as [-> _]. pose proof (sum_lookup (h_arc (hd_chan a)) _ _ _ Ha) as H. unfold h_arc in H at 1. rewrite La, Nat.eqb_refl in H. cbn in H. lia.
  - destruct (I2 _ _ Hl) as [-> _]. pose proof (sum_lookup (h_arc (hd_chan b)) _ _ _ Hb) as H. unfold h_arc in H at 1. rewrite Lb, Nat.eqb_refl in H. cbn in H. lia.
Qed.
Lemma strong_eqb a b : sender a → sender b → is_strong (hd_policy a) = is_strong (hd_policy b) ↔ same_strength a b.
Proof.
  intros Ha Hb. unfold same_strength. rewrite <- (is_strong_spec a Ha), <- (is_strong_spec b Hb).
  destruct (is_strong (hd_policy a)), (is_strong (hd_policy b)); intuition congruence.
Qed.
Lemma eq_spec w a b : wreachable w → exists_in w a → exists_in w b → sender a → sender b →
  addr_eq w a b = true ↔ same_channel a b ∧ same_strength a b.
Proof.
  intros Hw Ha Hb Sa Sb. unfold addr_eq, same_actor. rewrite andb_true_iff, Nat.eqb_eq, Bool.eqb_true_iff. by rewrite ptr_chan, strong_eqb.
Qed.
Lemma hash_spec w a b : addr_hash w a = addr_hash w b ↔ addr_eq w a b = true.
Proof.
  unfold addr_hash, addr_eq, same_actor. rewrite andb_true_iff, Nat.eqb_eq, Bool.eqb_true_iff. split.
  - intros [= -> H]. split; [done|]. by destruct (is_strong _), (is_strong _).
  - intros [-> ->]. done.
Qed.
Lemma partial_spec w a b : partial_cmp w a b = Some Eq ↔ addr_eq w a b = true.
Proof.
  unfold partial_cmp, addr_eq, same_actor. rewrite andb_true_iff, Nat.eqb_eq, Bool.eqb_true_iff.
  destruct (Nat.compare_spec (inner_ptr w a) (inner_ptr w b)) as [E|E|E]; destruct (is_strong (hd_policy a)), (is_strong (hd_policy b)); cbn; split; intros H; try done; try (destruct H; try done; lia).
Qed.
Lemma cmp_agree w a b : is_strong (hd_policy a) = is_strong (hd_policy b) →
  partial_cmp w a b = Some (addr_cmp w a b) ∧ (addr_cmp w a b = Eq ↔ addr_eq w a b = true).
Proof.
  intros H. assert (partial_cmp w a b = Some (addr_cmp w a b)) as E.
  { unfold partial_cmp, addr_cmp. rewrite H. destruct (Nat.compare _ _); [|reflexivity..]. destruct (is_strong (hd_policy b)); reflexivity. }
  split; [done|]. rewrite <- partial_spec, E. split; congruence.
Qed.

(** Conversions. *)
Lemma tx_count w c k : wreachable w → chans w !! c = Some k → ch_tx k = strong_handles c w.
Proof.
  intros Hw Hk. destruct (WI_run w Hw) as (_ & I2 & _). destruct (I2 _ _ Hk) as [_ ->]. unfold strong_handles. clear.
  induction (handles w) as [|a l IH]; cbn; [done|]. rewrite IH. unfold h_tx. destruct (hd_live a), (hd_chan a =? c), (hd_policy a) as [| |[]|]; cbn; lia.
Qed.
Lemma convert_result v i w w' : convert v i w = Some w' → ∃ a b k, handles w !! i = Some a ∧ hd_live a = true ∧ chans w !! hd_chan a = Some k ∧
  handles w' !! length (handles w) = Some b ∧ hd_live b = true ∧ hd_chan b = hd_chan a ∧ conv_policy v a k = Some (hd_policy b) ∧ hd_erased b = match v with CChannel => true | _ => hd_erased a end.
Proof.
  unfold convert. destruct (handles w !! i) as [a|] eqn:Ha; [|done]. destruct (hd_live a) eqn:Hl; [|done].
  destruct (chans w !! hd_chan a) as [k|] eqn:Hk; [|done]. destruct (conv_policy v a k) as [p|] eqn:Hp; [|done].
  intros H. exists a. destruct v; simplify_eq; unfold add_handle; cbn [handles chans]; eexists _, k; (do 3 (split; [done|])); (split; [first [by apply list_lookup_middle|apply list_lookup_middle; by rewrite insert_length]|done]).
Qed.
Lemma conv_strength v a b k : conv_policy v a k = Some (hd_policy b) →
  strong b ↔ match v with CDowngrade | CAddress => False | CUpgrade => True | _ => strong a end.
Proof.
  unfold conv_policy, strong. destruct v, (hd_policy a) as [| |[]|]; try done; intros H; repeat case_match; simplify_eq; try (rewrite <- H in *; clear H); intuition congruence.
Qed.
Lemma strength_iff vs P Q : (P ↔ Q) → strength_after P vs ↔ strength_after Q vs.
Proof. revert P Q; induction vs as [|[] vs IH]; intros P Q H; cbn; auto; done. Qed.
Lemma chain_spec vs : ∀ w i w' j a, handles w !! i = Some a → hd_live a = true → chain vs i w = Some (w', j) →
  ∃ b, handles w' !! j = Some b ∧ hd_live b = true ∧ same_channel a b ∧ (strong b ↔ strength_after (strong a) vs).
Proof.
  induction vs as [|v vs IH]; intros w i w' j a Ha Hl; cbn [chain].
  - intros [= <- <-]. by exists a.
  - destruct (convert v i w) as [w1|] eqn:E; [|done]. intros Hc. destruct (convert_result _ _ _ _ E) as (a' & b & k & Ha' & _ & Hk & Hb & Hbl & Hbc & Hp & _). simplify_eq.
    destruct (IH _ _ _ _ _ Hb Hbl Hc) as (c & Hc1 & Hc2 & Hc3 & Hc4). exists c. split; [done|]. split; [done|]. split; [unfold same_channel in *; congruence|].
    rewrite Hc4. pose proof (conv_strength _ _ _ _ Hp) as HS. destruct v; cbn [strength_after]; apply strength_iff; tauto.
Qed.
Lemma upgrade_spec w i a : wreachable w → handles w !! i = Some a → hd_live a = true → hd_policy a = PWeak → hd_erased a = false →
  (∃ w', convert CUpgrade i w = Some w') ↔ 0 < strong_handles (hd_chan a) w.
Proof.
  intros Hw Ha Hl Hp He. destruct (WI_run w Hw) as (I1 & _). destruct (lookup_lt_is_Some_2 _ _ (I1 _ _ Ha)) as [k Hk]. rewrite <- (tx_count w _ k Hw Hk).
  unfold convert. rewrite Ha, Hl, Hk. unfold conv_policy. rewrite Hp, He. destruct (Nat.eqb_spec (ch_tx k) 0); split; intros H; try lia; try (by destruct H). by eexists.
Qed.
(** A conversion changes nothing but the new handle (and the address it consumes). *)
Lemma convert_others v i w w' j b : convert v i w = Some w' → handles w !! j = Some b → j ≠ i ∨ v ≠ CChannel → handles w' !! j = Some b.
Proof.
  unfold convert. destruct (handles w !! i) as [a|] eqn:Ha; [|done]. destruct (hd_live a) eqn:Hl; [|done].
  destruct (chans w !! hd_chan a) as [k|] eqn:Hk; [|done]. destruct (conv_policy v a k) as [p|] eqn:Hp; [|done].
  intros H Hj Hv. pose proof (lookup_lt_Some _ _ _ Hj) as Hlt. destruct v; injection H as <-; unfold add_handle; cbn [handles]; rewrite lookup_app_l; rewrite ?insert_length; try done.
  destruct Hv as [Hv|]; [|done]. by rewrite list_lookup_insert_ne.
Qed.

