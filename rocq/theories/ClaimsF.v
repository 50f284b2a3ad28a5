(** The property statements of part F (identity of addresses), and their examples' states. *)
From stdpp Require Import base numbers list.
From Coq Require Import Lia.
From Verif Require Import AddrEq AddrSpec AddrProofs.

(** Two channels; the first is dropped and its location is used again; addresses of all kinds. *)
Definition w_addr : world :=
  wrun start [WNew 7; WNew 8; WDrop 0; WDrop 1; WNew 7; WConv CDowngrade 4; WConv CAsEither 4; WConv CAsEither 6; WConv CUpgrade 6; WConv CChannel 9; WConv CDowngrade 10].
(** A strong and a weak address of one channel, both of type [Address<A, Either>]. *)
Definition w_either : world := wrun start [WNew 7; WConv CAsEither 0; WConv CDowngrade 0; WConv CAsEither 3].

Lemma c36_eq : ∀ w a b, wreachable w → exists_in w a → exists_in w b → sender a → sender b →
  addr_eq w a b = true ↔ same_channel a b ∧ same_strength a b.
Proof. exact eq_spec. Qed.
Lemma c36_equivalence : ∀ w a b c, addr_eq w a a = true ∧ (addr_eq w a b = true → addr_eq w b a = true) ∧
  (addr_eq w a b = true → addr_eq w b c = true → addr_eq w a c = true).
Proof.
  intros w a b c. rewrite <- !hash_spec. split; [done|]. split; [done|]. intros -> ->. done.
Qed.
Lemma c36_hash : ∀ w a b, wreachable w → exists_in w a → exists_in w b → sender a → sender b →
  addr_hash w a = addr_hash w b ↔ same_channel a b ∧ same_strength a b.
Proof. intros. rewrite hash_spec. by apply eq_spec. Qed.

Lemma c37_refuted : ∃ w a b, wreachable w ∧ exists_in w a ∧ exists_in w b ∧ sender a ∧ sender b ∧ same_type a b ∧
  addr_cmp w a b = Eq ∧ addr_eq w a b = false ∧ partial_cmp w a b = Some Gt.
Proof.
  exists w_either, (HD 0 (PEither true) false true), (HD 0 (PEither false) false true).
  split; [by eexists|]. split; [exists 2; split; vm_compute; reflexivity|]. split; [exists 4; split; vm_compute; reflexivity|].
  split; [done|]. split; [done|]. split; [done|]. split; [vm_compute; reflexivity|]. split; vm_compute; reflexivity.
Qed.
Lemma c37_same_kind : ∀ w a b, wreachable w → exists_in w a → exists_in w b → sender a → sender b → same_strength a b →
  partial_cmp w a b = Some (addr_cmp w a b) ∧ (addr_cmp w a b = Eq ↔ addr_eq w a b = true).
Proof. intros w a b Hw Ha Hb Sa Sb Hs. apply cmp_agree. by apply strong_eqb. Qed.
Lemma c37_partial_cmp : ∀ w a b, wreachable w → exists_in w a → exists_in w b → sender a → sender b →
  partial_cmp w a b = Some Eq ↔ same_channel a b ∧ same_strength a b.
Proof. intros. rewrite partial_spec. by apply eq_spec. Qed.
Lemma c37_order : ∀ w a b c, addr_cmp w b a = CompOpp (addr_cmp w a b) ∧
  (addr_cmp w a b = Lt → addr_cmp w b c = Lt → addr_cmp w a c = Lt).
Proof. intros w a b c. unfold addr_cmp. split; [apply Nat.compare_antisym|]. rewrite !Nat.compare_lt_iff. lia. Qed.

Lemma c47_chain : ∀ w vs i a w' j, wreachable w → handles w !! i = Some a → hd_live a = true → chain vs i w = Some (w', j) →
  ∃ b, handles w' !! j = Some b ∧ hd_live b = true ∧ same_channel a b ∧ (strong b ↔ strength_after (strong a) vs).
Proof. intros. by eapply chain_spec. Qed.
Lemma c47_upgrade : ∀ w i a, wreachable w → handles w !! i = Some a → hd_live a = true → hd_policy a = PWeak → hd_erased a = false →
  (∃ w', convert CUpgrade i w = Some w') ↔ 0 < strong_handles (hd_chan a) w.
Proof. exact upgrade_spec. Qed.
Lemma c47_counts : ∀ w c k, wreachable w → chans w !! c = Some k → ch_tx k = strong_handles c w.
Proof. exact tx_count. Qed.
Lemma c47_others : ∀ v i w w' j b, convert v i w = Some w' → handles w !! j = Some b → j ≠ i ∨ v ≠ CChannel → handles w' !! j = Some b.
Proof. exact convert_others. Qed.
Lemma c47_exist : ∀ w i a, wreachable w → handles w !! i = Some a → hd_live a = true →
  (sender a → ∃ w', convert CClone i w = Some w') ∧
  (hd_policy a = PStrong ∨ (∃ b, hd_policy a = PEither b) → ∃ w', convert CDowngrade i w = Some w') ∧
  (sender a → ∃ w', convert CAsEither i w = Some w') ∧
  (sender a → hd_erased a = false → ∃ w', convert CChannel i w = Some w') ∧
  (hd_policy a = PRx → ∃ w', convert CAddress i w = Some w').
Proof.
  intros w i a Hw Ha Hl. destruct (WI_run w Hw) as (I1 & _). destruct (lookup_lt_is_Some_2 _ _ (I1 _ _ Ha)) as [k Hk].
  unfold convert, conv_policy, sender. rewrite Ha, Hl, Hk. destruct (hd_policy a) as [| |b|] eqn:Hp; repeat split; try done; try (intros [[=]|[? [=]]]); try (by eexists); intros; rewrite ?H0; by eexists.
Qed.
