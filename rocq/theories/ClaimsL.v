(** The property statements, derived from the invariants (part L: the order of short queues). *)
From stdpp Require Import base numbers list list_numbers.
From Coq Require Import Lia.
From Verif Require Import Prio Heap State Model Lib Spec Witness ClaimsA OrderSpec OrderProofs.

(** The schedule of a single-threaded execution. *)
Fixpoint settling (fuel : nat) (s : state) : list op :=
  match fuel with
  | 0 => []
  | S n => match first_busy (thr s) 0 with Some t => Step t :: settling n (step s (Step t)) | None => [] end
  end.
Fixpoint plan (s : state) (l : list op) : list op :=
  match l with
  | [] => []
  | o :: l => let k := settling 200 (step s o) in o :: k ++ plan (run (step s o) k) l
  end.
(** [orderly], computed. *)
Fixpoint ordb (n : nat) (s : state) (ops : list op) : bool :=
  (length (uq s) <=? n) && (receiving s <=? 1) &&
  match ops with
  | [] => true
  | o :: l =>
      match o with
      | ADropHol r => match hols s !! r with Some (HO _ (HRecvWait _) _ _) => false | _ => true end
      | _ => true
      end && ordb n (step s o) l
  end.
Lemma ordb_spec n c ops : ordb n (init c) ops = true → orderly n c ops.
Proof.
  unfold orderly. generalize (init c). induction ops as [|o ops IH]; intros s H k; cbn [ordb] in H.
  - rewrite take_nil. cbn. rewrite !andb_true_iff, !Nat.leb_le in H. destruct H as [[H1 H2] _]. split_and!; [done..|]. intros r Hr. by rewrite lookup_nil in Hr.
  - rewrite !andb_true_iff, !Nat.leb_le in H. destruct H as [[H1 H2] [H3 H4]]. destruct k as [|k]; cbn; [|by apply IH].
    split_and!; [done..|]. intros r [= ->] (b & ob & k & w & Hw). by rewrite Hw in H3.
Qed.
Lemma none_blocked_spec s : forallb (λ e, match e with EvBlocked _ => false | _ => true end) (log s) = true → none_blocked s.
Proof. intros H m Hm. rewrite forallb_forall in H. unfold happened in Hm. rewrite elem_of_list_In in Hm. by specialize (H _ Hm). Qed.

Definition p_four : list op :=
  plan (init None) (send 0 0 ++ send 0 1 ++ send 0 2 ++ send 0 3 ++ recv 0 1 ++ recv 0 2 ++ recv 0 3 ++ recv 0 4).
Definition p_three : list op :=
  plan (init None) (recv 0 1 ++ send 0 0 ++ send 0 1 ++ [APollRecv 1] ++ send 0 2 ++ send 0 3 ++ recv 0 2 ++ send 0 4 ++ recv 0 3 ++ recv 0 4).

Lemma c10_short : ∀ c ops m n, let s := run (init c) ops in
  orderly 3 c ops → default_priorities s → none_blocked s → before (EvAccept m) (EvAccept n) s →
  (∀ q r x y, um_id x = m → um_id y = n → ¬ before (EvRecv q (ToOne y)) (EvRecv r (ToOne x)) s) ∧
  (∀ r y, um_id y = n → happened (EvRecv r (ToOne y)) s → in_queue m s = 0).
Proof. exact order_ok. Qed.

Lemma c10_four : ∃ ops m n, let s := run (init None) ops in
  orderly 4 None ops ∧ default_priorities s ∧ none_blocked s ∧ before (EvAccept m) (EvAccept n) s ∧
  ∃ q r x y, um_id x = m ∧ um_id y = n ∧ before (EvRecv q (ToOne y)) (EvRecv r (ToOne x)) s.
Proof.
  exists p_four, 1, 2. split; [apply ordb_spec; vm|]. split; [apply default_spec; vm|]. split; [apply none_blocked_spec; vm|].
  split; [apply (before_spec 8 11); [lia|vm|vm]|]. exists 2, 3, (UM 1 0), (UM 2 0). split; [done|]. split; [done|]. apply (before_spec 1 2); [lia|vm|vm].
Qed.
