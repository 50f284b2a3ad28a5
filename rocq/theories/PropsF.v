(** Property theorems, part F: identity of addresses. *)
From stdpp Require Import base numbers list.
From Coq Require Import Lia.
From Verif Require Import AddrEq AddrSpec AddrProofs ClaimsF.

(** ** C36: equality means same channel and same strength, it is an equivalence, and the data fed to the hasher
    are the same exactly for equal addresses (or message channels). *)
Theorem C36_equality : ∀ w a b, wreachable w → exists_in w a → exists_in w b → sender a → sender b →
  addr_eq w a b = true ↔ same_channel a b ∧ same_strength a b.
Proof. exact c36_eq. Qed.
Print Assumptions C36_equality.
Theorem C36_equivalence : ∀ w a b c, addr_eq w a a = true ∧ (addr_eq w a b = true → addr_eq w b a = true) ∧
  (addr_eq w a b = true → addr_eq w b c = true → addr_eq w a c = true).
Proof. exact c36_equivalence. Qed.
Print Assumptions C36_equivalence.
Theorem C36_hash : ∀ w a b, wreachable w → exists_in w a → exists_in w b → sender a → sender b →
  addr_hash w a = addr_hash w b ↔ same_channel a b ∧ same_strength a b.
Proof. exact c36_hash. Qed.
Print Assumptions C36_hash.
Example C36_example : ∃ a b c, wreachable w_addr ∧ exists_in w_addr a ∧ exists_in w_addr b ∧ exists_in w_addr c ∧ sender a ∧ sender b ∧ sender c ∧
  same_channel a b ∧ hd_policy a = PStrong ∧ hd_policy b = PEither true ∧ addr_eq w_addr a b = true ∧ hd_policy c = PWeak ∧ same_channel a c ∧ addr_eq w_addr a c = false.
Proof.
  exists (HD 2 PStrong true true), (HD 2 (PEither true) false true), (HD 2 PWeak false true). split; [by eexists|].
  split; [exists 10; split; vm_compute; reflexivity|]. split; [exists 7; split; vm_compute; reflexivity|]. split; [exists 6; split; vm_compute; reflexivity|].
  repeat split; done.
Qed.

(** ** C37: full statement: [cmp], [partial_cmp] and [==] agree on all addresses of one type.  False for
    [Address<A, Either>]: [cmp] ignores the strength.  Proved: they agree on addresses of the same strength (hence
    for [Address<A, Strong>] and [Address<A, Weak>]); [partial_cmp] always agrees with [==]; [cmp] is an order. *)
Theorem C37_either_refuted : ∃ w a b, wreachable w ∧ exists_in w a ∧ exists_in w b ∧ sender a ∧ sender b ∧ same_type a b ∧
  addr_cmp w a b = Eq ∧ addr_eq w a b = false ∧ partial_cmp w a b = Some Gt.
Proof. exact c37_refuted. Qed.
Print Assumptions C37_either_refuted.
Theorem C37_same_strength_partial : ∀ w a b, wreachable w → exists_in w a → exists_in w b → sender a → sender b → same_strength a b →
  partial_cmp w a b = Some (addr_cmp w a b) ∧ (addr_cmp w a b = Eq ↔ addr_eq w a b = true).
Proof. exact c37_same_kind. Qed.
Print Assumptions C37_same_strength_partial.
Theorem C37_partial_cmp_partial : ∀ w a b, wreachable w → exists_in w a → exists_in w b → sender a → sender b →
  partial_cmp w a b = Some Eq ↔ same_channel a b ∧ same_strength a b.
Proof. exact c37_partial_cmp. Qed.
Print Assumptions C37_partial_cmp_partial.
Theorem C37_order_partial : ∀ w a b c, addr_cmp w b a = CompOpp (addr_cmp w a b) ∧
  (addr_cmp w a b = Lt → addr_cmp w b c = Lt → addr_cmp w a c = Lt).
Proof. exact c37_order. Qed.
Print Assumptions C37_order_partial.
Example C37_example : ∃ a b, wreachable w_addr ∧ exists_in w_addr a ∧ exists_in w_addr b ∧ sender a ∧ sender b ∧ same_strength a b ∧ same_type a b ∧
  addr_cmp w_addr a b = Gt ∧ addr_eq w_addr a b = false.
Proof.
  exists (HD 1 PStrong false true), (HD 2 PStrong false true). split; [by eexists|].
  split; [exists 2; split; vm_compute; reflexivity|]. split; [exists 4; split; vm_compute; reflexivity|]. repeat split; done.
Qed.

(** ** C47: any chain of conversions leads to the same channel, with the strength of the last [downgrade] / [upgrade]
    (or the original one); which conversions succeed; the sender count of every channel is the number of its strong
    addresses and message channels; no other handle changes. *)
Theorem C47_chain : ∀ w vs i a w' j, wreachable w → handles w !! i = Some a → hd_live a = true → chain vs i w = Some (w', j) →
  ∃ b, handles w' !! j = Some b ∧ hd_live b = true ∧ same_channel a b ∧ (strong b ↔ strength_after (strong a) vs).
Proof. exact c47_chain. Qed.
Print Assumptions C47_chain.
Theorem C47_conversions_exist : ∀ w i a, wreachable w → handles w !! i = Some a → hd_live a = true →
  (sender a → ∃ w', convert CClone i w = Some w') ∧
  (hd_policy a = PStrong ∨ (∃ b, hd_policy a = PEither b) → ∃ w', convert CDowngrade i w = Some w') ∧
  (sender a → ∃ w', convert CAsEither i w = Some w') ∧
  (sender a → hd_erased a = false → ∃ w', convert CChannel i w = Some w') ∧
  (hd_policy a = PRx → ∃ w', convert CAddress i w = Some w').
Proof. exact c47_exist. Qed.
Print Assumptions C47_conversions_exist.
Theorem C47_upgrade : ∀ w i a, wreachable w → handles w !! i = Some a → hd_live a = true → hd_policy a = PWeak → hd_erased a = false →
  (∃ w', convert CUpgrade i w = Some w') ↔ 0 < strong_handles (hd_chan a) w.
Proof. exact c47_upgrade. Qed.
Print Assumptions C47_upgrade.
Theorem C47_sender_count : ∀ w c k, wreachable w → chans w !! c = Some k → ch_tx k = strong_handles c w.
Proof. exact c47_counts. Qed.
Print Assumptions C47_sender_count.
Theorem C47_others_untouched : ∀ v i w w' j b, convert v i w = Some w' → handles w !! j = Some b → j ≠ i ∨ v ≠ CChannel → handles w' !! j = Some b.
Proof. exact c47_others. Qed.
Print Assumptions C47_others_untouched.
Example C47_example : ∃ a w' j, wreachable w_addr ∧ handles w_addr !! 4 = Some a ∧ hd_live a = true ∧
  chain [CClone; CDowngrade; CAsEither; CChannel; CClone] 4 w_addr = Some (w', j) ∧ 0 < strong_handles (hd_chan a) w_addr ∧
  chain [CDowngrade; CUpgrade] 4 w_addr ≠ None.
Proof. eexists _, _, _. split; [by eexists|]. split; [vm_compute; reflexivity|]. split; [done|]. split; [vm_compute; reflexivity|]. split; [vm_compute; lia|]. vm_compute. done. Qed.
