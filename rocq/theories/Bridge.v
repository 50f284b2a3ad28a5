(** From token sums to the counts of the specification. *)
From stdpp Require Import base numbers list list_numbers.
From Coq Require Import Lia.
From Verif Require Import Prio Heap State Model HeapProofs Frame Lib InvMsg Spec.

Lemma reachable_reach s : reachable s → reach s.
Proof. intros (c & ops & ->). apply reach_run, reach_init. Qed.
Lemma later_reach s s' : reach s → later s s' → reach s'.
Proof. intros H [ops ->]. by apply reach_run. Qed.
Lemma later_reachable s s' : reachable s → later s s' → reachable s'.
Proof. intros (c & l & ->) [k ->]. exists c, (l ++ k). by rewrite run_app. Qed.

Definition b2n (b : bool) : nat := if b then 1 else 0.
Lemma cnt_sum {A} (g : A → nat) p l : (∀ x, g x = b2n (p x)) → cnt p l = Σ g l.
Proof.
  intros H. unfold cnt. induction l as [|a l IH]; simpl; [done|]. rewrite H. unfold b2n.
  destruct (p a); simpl; lia.
Qed.
Lemma todo_sum g p s : (∀ x, g x = b2n (p x)) → todo p s = msum g s.
Proof.
  intros H. unfold todo, msum. induction (thr s) as [|l L IH]; simpl; [done|].
  unfold cnt in *. rewrite List.filter_app, app_length, IH. f_equal. by apply cnt_sum.
Qed.
Lemma cnt_pos {A} (p : A → bool) l x : x ∈ l → p x = true → 0 < cnt p l.
Proof.
  intros Hx Hp. unfold cnt. assert (x ∈ List.filter p l) as H by (by rewrite elem_of_list_In, filter_In, <-elem_of_list_In).
  destruct (List.filter p l); [by apply elem_of_nil in H|simpl; lia].
Qed.
Lemma cnt_pos_inv {A} (p : A → bool) l : 0 < cnt p l → ∃ x, x ∈ l ∧ p x = true.
Proof.
  unfold cnt. destruct (List.filter p l) as [|x k] eqn:E; simpl; [lia|]. intros _. exists x.
  rewrite elem_of_list_In. apply (filter_In p x l). rewrite E. by left.
Qed.
Lemma cnt_zero {A} (p : A → bool) l : (∀ x, x ∈ l → p x = false) → cnt p l = 0.
Proof.
  intros H. destruct (decide (0 < cnt p l)) as [Hp|]; [|lia]. apply cnt_pos_inv in Hp as (x & Hx & Hp). by rewrite H in Hp.
Qed.
Lemma quiet_msum g s : quiet s → msum g s = 0.
Proof.
  intros H. unfold msum. apply sum_zero. intros p [t Ht]%elem_of_list_lookup. by rewrite (H t p Ht).
Qed.

Ltac b2n := let x := fresh in intros x; destruct x; cbv -[Nat.eqb]; try done; repeat (case_match; simplify_eq; try done).

(** Properties kept along any continuation of an execution. *)
Lemma later_inv (I : state → Prop) :
  (∀ s o, reach s → I s → I (api o s)) →
  (∀ s t u rest s1 new, reach s → I s → thr s !! t = Some (u :: rest) → exec u s = (s1, new) →
     thr s1 = thr s → I (set_thr (<[t := new ++ rest]> (thr s1)) s1)) →
  (∀ s, reach s → I s → chan_owned s = false → I (free_chan s)) →
  ∀ s s', reach s → later s s' → I s → I s'.
Proof.
  intros Ha Hs Hf s s' Hr [l ->] H0. revert s Hr H0. induction l as [|o l IH]; intros s Hr H0; [done|]. cbn.
  apply IH; [by apply reach_one|].
  assert (∀ x, reach x → I x → I (collect x)) as Hc.
  { intros x Hx Ix. unfold collect. destruct (chan_owned x) eqn:E; [done|by apply Hf]. }
  unfold step. destruct o; apply Hc; try (by apply reach_api); try (by apply Ha); try (by apply reach_step).
  unfold do_step. destruct (thr s !! t) as [[|u rest]|] eqn:Ht; try done.
  destruct (exec u s) as [s1 new] eqn:E. eapply Hs; eauto.
  pose proof (exec_thr u s) as H. by rewrite E in H.
Qed.
