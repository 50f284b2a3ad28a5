(** The property statements, derived from the invariants (part K: the channel lock). *)
From stdpp Require Import base numbers list list_numbers.
From Coq Require Import Lia.
From Verif Require Import Reent ReentSpec ReentProofs.

(** A message that owns a strong address is queued; the program drops its address, then the mailbox is dropped. *)
Definition d_queue : list rop :=
  [RDoSend (PM [OStrong]) false; RStep 0; RStep 0; RDropAddr; RStep 1; RMbDrop; RStep 2; RStep 2; RStep 2].
(** The same with a message that waits because the mailbox is full, and owns a send future with a strong address. *)
Definition d_blocked : list rop :=
  [RDoSend (PM []) false; RStep 0; RStep 0; RDoSend (PM [OWeak; OFuture true (PM [])]) true; RStep 1; RStep 1; RStep 1;
   RDropAddr; RStep 2; RMbDrop; RStep 3; RStep 3; RStep 3].
Lemma c49_refuted : ∃ c ops t, let s := rrun (rinit c) ops in waits_for_itself s t ∧ ¬ no_deadlock s ∧
  ∀ ops', r_thr (rrun s ops') !! t = r_thr s !! t ∧ r_lock (rrun s ops') = Some t.
Proof.
  exists None, d_queue, 2. cbv zeta. assert (waits_for_itself (rrun (rinit None) d_queue) 2) as H.
  { eexists _, _. split; [vm_compute; reflexivity|]. by split. }
  split; [exact H|]. split; [by intros [Hn _]; apply (Hn 2)|]. by apply stuck_forever.
Qed.
Lemma c49_blocked_refuted : ∃ n ops t, let s := rrun (rinit (Some n)) ops in waits_for_itself s t ∧ r_queue s = [] ∧ ¬ no_deadlock s ∧
  ∀ ops', r_thr (rrun s ops') !! t = r_thr s !! t ∧ r_lock (rrun s ops') = Some t.
Proof.
  exists 1, d_blocked, 3. cbv zeta. assert (waits_for_itself (rrun (rinit (Some 1)) d_blocked) 3) as H.
  { eexists _, _. split; [vm_compute; reflexivity|]. by split. }
  split; [exact H|]. split; [done|]. split; [by intros [Hn _]; apply (Hn 3)|]. by apply stuck_forever.
Qed.
Lemma c49_light : ∀ c ops, (∀ m b, RDoSend m b ∈ ops → strongs m = 0) → no_deadlock (rrun (rinit c) ops).
Proof. exact light_safe. Qed.
Lemma c49_ext : ∀ c ops, (∀ k, 0 < r_ext (rrun (rinit c) (take k ops))) → no_deadlock (rrun (rinit c) ops).
Proof. exact ext_safe. Qed.
